(** Proofs about Monitor_Model.v *)
From Coq Require Import List Arith Bool ZArith QArith Lia Lqa Sorted Permutation.
From Verif Require Import Base Dict Tput_Model Tput_Spec Tput_Proofs Tput_Props Monitor_Model Monitor_Spec.
Import ListNotations.
Open Scope nat_scope.
Notation run := Monitor_Model.run.

(** ** Lists *)
Lemma discard_in k l x : In x (discard k l) <-> In x l /\ x <> k.
Proof.
  unfold discard. rewrite filter_In. destruct (Nat.eqb_spec x k); cbn; intuition congruence.
Qed.
Lemma discard_not k l : ~ In k l -> discard k l = l.
Proof.
  unfold discard. induction l as [|a l IH]; cbn; intros H; [reflexivity|].
  destruct (Nat.eqb_spec a k) as [->|N]; [exfalso; apply H; left; reflexivity|]. cbn. f_equal. apply IH. tauto.
Qed.
Lemma discard_nodup k l : NoDup l -> NoDup (discard k l).
Proof. apply NoDup_filter. Qed.
Lemma discard_twice k l : discard k (discard k l) = discard k l.
Proof. apply discard_not. rewrite discard_in. tauto. Qed.

Lemma ids_nodup h : NoDup (ids h).
Proof.
  induction h as [|e h IH]; cbn; [constructor|]. destruct e; try exact IH; [apply add_nodup|apply discard_nodup]; exact IH.
Qed.

(** ** Waiting *)
Lemma less_some i p t l : less i p = Some (t, l) <-> exists l0, p = Some (t, l0) /\ l = discard i l0 /\ l <> [].
Proof.
  unfold less. destruct p as [[t0 l0]|]; [|split; [discriminate|intros (l1 & H & _); discriminate]].
  destruct (discard i l0) as [|x y] eqn:E.
  - split; [discriminate|]. intros (l1 & H & H1 & H2). injection H as -> <-. congruence.
  - split.
    + intros H. injection H as -> <-. exists l0. split; [reflexivity|]. split; [congruence|discriminate].
    + intros (l1 & H & H1 & H2). injection H as -> <-. congruence.
Qed.
Lemma less_none i p : less i p = None <-> forall t l, p = Some (t, l) -> discard i l = [].
Proof.
  unfold less. destruct p as [[t0 l0]|].
  - destruct (discard i l0) as [|x y] eqn:E.
    + split; [|reflexivity]. intros _ t l H. injection H as -> <-. exact E.
    + split; [discriminate|]. intros H. specialize (H t0 l0 eq_refl). congruence.
  - split; [intros _ t l H; discriminate|reflexivity].
Qed.

Lemma waiting_facts h k t l : waiting h k = Some (t, l) -> l <> [] /\ incl l (ids h) /\ NoDup l.
Proof.
  revert t l. induction h as [|e h IH]; cbn [waiting ids]; intros t l H; [discriminate|].
  destruct e; try discriminate; try exact (IH t l H).
  - apply less_some in H. destruct H as (l0 & E & -> & N). destruct (IH t l0 E) as (_ & Hi & Hn).
    split; [exact N|]. split; [|apply discard_nodup; exact Hn].
    intros x Hx. apply discard_in in Hx. apply discard_in. split; [apply Hi; tauto|tauto].
  - destruct (k0 =? k); [|exact (IH t l H)]. pose proof (ids_nodup h) as Hn. destruct (ids h) as [|a y]; [discriminate|]. injection H as -> <-.
    split; [discriminate|]. split; [apply incl_refl|exact Hn].
  - destruct (existsb (Nat.eqb k) ks); [|exact (IH t l H)].
    apply less_some in H. destruct H as (l0 & E & -> & N). destruct (IH t l0 E) as (_ & Hi & Hn).
    split; [exact N|]. split; [|apply discard_nodup; exact Hn].
    intros x Hx. apply discard_in in Hx. apply Hi. tauto.
  - destruct (k0 =? k); [discriminate|exact (IH t l H)].
Qed.

Lemma waits_cons e h k t i : waits (e :: h) k t i <-> (e = EReceived k t /\ In i (ids h)) \/ (waits h k t i /\ ~ ends k i e).
Proof.
  split.
  - intros (later & older & E & Hi & Hn). destruct later as [|e0 later]; cbn in E; injection E as -> ->.
    + left. auto.
    + right. split; [|apply Hn; left; reflexivity]. exists later, older. split; [reflexivity|]. split; [exact Hi|].
      intros e He. apply Hn. right. exact He.
  - intros [(-> & Hi)|((later & older & -> & Hi & Hn) & He)].
    + exists [], h. split; [reflexivity|]. split; [exact Hi|intros e []].
    + exists (e :: later), older. split; [reflexivity|]. split; [exact Hi|]. intros e0 [<-|H0]; [exact He|exact (Hn e0 H0)].
Qed.

Lemma waiting_waits h k t i : waits h k t i <-> exists l, waiting h k = Some (t, l) /\ In i l.
Proof.
  induction h as [|e h IH].
  - split; [intros (later & older & E & _); destruct later; discriminate|intros (l & H & _); discriminate].
  - rewrite waits_cons, IH. clear IH. destruct e as [j s|j|s|k' s|j ks s kn|k'|s|s]; cbn [waiting ends].
    + split; [intros [(E & _)|(_ & H)]; [discriminate|tauto]|intros (l & H & _); discriminate].
    + split.
      * intros [(E & _)|((l & H & Hi) & N)]; [discriminate|].
        destruct (less j (waiting h k)) as [[t' l']|] eqn:E.
        -- apply less_some in E. destruct E as (l0 & E & -> & _). rewrite E in H. injection H as -> ->.
           exists (discard j l). split; [reflexivity|]. apply discard_in. split; [exact Hi|congruence].
        -- rewrite less_none in E. specialize (E t l H). exfalso. assert (Hx : In i (discard j l)) by (apply discard_in; split; [exact Hi|congruence]).
           rewrite E in Hx. destruct Hx.
      * intros (l & H & Hi). apply less_some in H. destruct H as (l0 & E & -> & _). apply discard_in in Hi. right.
        split; [exists l0; tauto|]. intros ->. tauto.
    + split; [intros [(E & _)|(_ & H)]; [discriminate|tauto]|intros (l & H & _); discriminate].
    + destruct (Nat.eqb_spec k' k) as [->|N].
      * split.
        -- intros [(E & Hi)|(_ & H)]; [|tauto]. injection E as ->. destruct (ids h) as [|a y]; [destruct Hi|]. eauto.
        -- intros (l & H & Hi). left. destruct (ids h) as [|a y]; [discriminate|]. injection H as -> <-. auto.
      * split; [intros [(E & _)|(H & _)]; [congruence|exact H]|]. intros H. right. split; [exact H|exact N].
    + destruct (existsb (Nat.eqb k) ks) eqn:Ek.
      * apply mem_in in Ek. split.
        -- intros [(E & _)|((l & H & Hi) & N)]; [discriminate|].
           destruct (less j (waiting h k)) as [[t' l']|] eqn:E.
           ++ apply less_some in E. destruct E as (l0 & E & -> & _). rewrite E in H. injection H as -> ->.
              exists (discard j l). split; [reflexivity|]. apply discard_in. split; [exact Hi|intros ->; tauto].
           ++ rewrite less_none in E. specialize (E t l H). exfalso.
              assert (Hx : In i (discard j l)) by (apply discard_in; split; [exact Hi|intros ->; tauto]). rewrite E in Hx. destruct Hx.
        -- intros (l & H & Hi). apply less_some in H. destruct H as (l0 & E & -> & _). apply discard_in in Hi. right.
           split; [exists l0; tauto|]. intros (-> & _). tauto.
      * split; [intros [(E & _)|(H & _)]; [discriminate|exact H]|]. intros H. right. split; [exact H|].
        intros (_ & Hk). apply mem_in in Hk. congruence.
    + destruct (Nat.eqb_spec k' k) as [->|N].
      * split; [intros [(E & _)|(_ & H)]; [discriminate|tauto]|intros (l & H & _); discriminate].
      * split; [intros [(E & _)|(H & _)]; [discriminate|exact H]|]. intros H. right. split; [exact H|exact N].
    + split; [intros [(E & _)|(H & _)]; [discriminate|exact H]|]. intros H. right. split; [exact H|tauto].
    + split; [intros [(E & _)|(H & _)]; [discriminate|exact H]|]. intros H. right. split; [exact H|tauto].
Qed.

Lemma less_less i p : less i (less i p) = less i p.
Proof.
  destruct (less i p) as [[t l]|] eqn:E; [|reflexivity].
  pose proof E as E'. apply less_some in E'. destruct E' as (l0 & _ & -> & N). apply less_some.
  exists (discard i l0). split; [reflexivity|]. rewrite discard_twice. split; [reflexivity|exact N].
Qed.
(** a batch is ordered like its requests, one after the other *)
Lemma waiting_split h i k ks t kn x :
  waiting (EOrdered i ks t kn :: EOrdered i [k] t kn :: h) x = waiting (EOrdered i (k :: ks) t kn :: h) x.
Proof.
  cbn [waiting existsb]. destruct (Nat.eqb_spec x k) as [->|N]; cbn [orb].
  - destruct (existsb (Nat.eqb k) ks); [apply less_less|reflexivity].
  - reflexivity.
Qed.

(** ** Reported requests *)
Fixpoint reported (c : config) (h : list event) (k : nat) : bool :=
  match h with
  | [] => false
  | EReceived k' _ :: h => if k' =? k then false else reported c h k
  | ECheck t :: h =>
      reported c h k || match waiting h k with Some (tk, l) => existsb (Nat.eqb 0) l && (check_freq c <? t - tk) | None => false end
  | _ :: h => reported c h k
  end.

(** ** The tracker *)
Lemma by_all_spec r : NoDup (map fst (r_ordered r)) -> (by_all r = true <-> forall j, get j (r_ordered r) <> Some false).
Proof.
  intros N. unfold by_all. rewrite forallb_forall. split.
  - intros H j E. apply get_in in E. specialize (H _ E). discriminate.
  - intros H [j b] I. cbn. destruct b; [reflexivity|]. exfalso. apply (H j). apply in_get; assumption.
Qed.

Definition req_ok (c : config) (h : list event) (now k : nat) (r : req) : Prop :=
  exists l, waiting h k = Some (r_time r, l) /\ NoDup (map fst (r_ordered r)) /\
    (forall j, get j (r_ordered r) = Some false <-> In j l) /\ get 0 (r_ordered r) <> None /\ r_time r <= now /\
    r_handled r = reported c h k.
Record tinv (c : config) (h : list event) (now : nat) (x : tracker) : Prop := {
  v_ids : t_ids x = ids h;
  v_zero : In 0 (ids h);
  v_nodup : NoDup (map fst (t_reqs x));
  v_req : forall k r, get k (t_reqs x) = Some r -> req_ok c h now k r;
  v_none : forall k, get k (t_reqs x) = None -> waiting h k = None;
  v_unord : forall k, In k (t_unordered x) <-> exists t l, waiting h k = Some (t, l) /\ In 0 l }.

Lemma tinv_later c h now now' x : tinv c h now x -> now <= now' -> tinv c h now' x.
Proof.
  intros H L. constructor; try apply H. intros k r E. destruct (v_req _ _ _ _ H k r E) as (l & A1 & A2 & A3 & A4 & A5 & A6).
  exists l. do 4 (split; [assumption|]). split; [lia|assumption].
Qed.

(** events that change nothing of the tracker *)
Lemma tinv_same c h now x h' : tinv c h now x -> ids h' = ids h -> (forall k, waiting h' k = waiting h k) ->
  (forall k, waiting h k <> None -> reported c h' k = reported c h k) -> tinv c h' now x.
Proof.
  intros H Hi Hw Hr. constructor.
  - rewrite Hi. apply H.
  - rewrite Hi. apply H.
  - apply H.
  - intros k r E. destruct (v_req _ _ _ _ H k r E) as (l & A1 & A2 & A3 & A4 & A5 & A6). exists l. rewrite Hw.
    do 5 (split; [assumption|]). rewrite Hr; [exact A6|congruence].
  - intros k E. rewrite Hw. exact (v_none _ _ _ _ H k E).
  - intros k. rewrite Hw. apply H.
Qed.

Lemma get_new_req t l j : get j (r_ordered (new_req t l)) = if existsb (Nat.eqb j) l then Some false else None.
Proof.
  cbn. induction l as [|a l IH]; cbn; [reflexivity|]. destruct (j =? a); cbn; [reflexivity|exact IH].
Qed.
Lemma keys_new_req t l : map fst (r_ordered (new_req t l)) = l.
Proof. cbn. rewrite map_map. apply map_id. Qed.

Lemma tinv_start c h now k t x : tinv c h now x -> now <= t -> tinv c (EReceived k t :: h) t (tr_start k t x).
Proof.
  intros H L. apply (fun H => tinv_later c h now t x H L) in H. clear L.
  pose proof (v_ids _ _ _ _ H) as Hi. pose proof (v_zero _ _ _ _ H) as H0.
  assert (Hne : exists a y, ids h = a :: y) by (destruct (ids h); [destruct H0|eauto]). destruct Hne as (a & y & Hne).
  assert (Hw : forall k', waiting (EReceived k t :: h) k' = if k =? k' then Some (t, ids h) else waiting h k').
  { intros k'. cbn [waiting]. rewrite Hne. reflexivity. }
  constructor; cbn [tr_start t_ids t_reqs t_unordered ids].
  - exact Hi.
  - exact H0.
  - apply nodup_set. apply H.
  - intros k' r E. rewrite get_set in E. unfold req_ok. rewrite Hw. cbn [reported]. rewrite (Nat.eqb_sym k k').
    destruct (Nat.eqb_spec k' k) as [->|N].
    + injection E as <-. exists (ids h). split; [reflexivity|]. rewrite keys_new_req, Hi. split; [apply ids_nodup|].
      split; [|split; [|split; [cbn; lia|reflexivity]]].
      * intros j. rewrite get_new_req. destruct (existsb (Nat.eqb j) (ids h)) eqn:E.
        -- apply mem_in in E. tauto.
        -- split; [discriminate|]. intros Hj. apply mem_in in Hj. congruence.
      * rewrite get_new_req. apply mem_in in H0. rewrite H0. discriminate.
    + exact (v_req _ _ _ _ H k' r E).
  - intros k' E. rewrite get_set in E. rewrite Hw, (Nat.eqb_sym k k'). destruct (k' =? k); [discriminate|].
    exact (v_none _ _ _ _ H k' E).
  - intros k'. rewrite add_in, Hw, (v_unord _ _ _ _ H). destruct (Nat.eqb_spec k k') as [->|N].
    + split; [intros _; eauto|auto].
    + split; [intros [->|E]; [congruence|exact E]|auto].
Qed.

Lemma tinv_drop c h now k x : tinv c h now x -> tinv c (EDrop k :: h) now (tr_drop k x).
Proof.
  intros H. constructor; cbn [tr_drop t_ids t_reqs t_unordered ids].
  - apply H.
  - apply H.
  - apply nodup_filter. apply H.
  - intros k' r E. rewrite get_del in E. unfold req_ok. cbn [waiting reported]. rewrite (Nat.eqb_sym k k').
    destruct (k' =? k); [discriminate|]. exact (v_req _ _ _ _ H k' r E).
  - intros k' E. rewrite get_del in E. cbn [waiting]. rewrite (Nat.eqb_sym k k'). destruct (k' =? k); [reflexivity|].
    exact (v_none _ _ _ _ H k' E).
  - intros k'. rewrite discard_in, (v_unord _ _ _ _ H). cbn [waiting]. destruct (Nat.eqb_spec k k') as [->|N].
    + split; [tauto|]. intros (t & l & E & _). discriminate.
    + split; [tauto|]. auto.
Qed.

(** what an ordering does to one request *)
Lemma req_order_get i r j : get j (r_ordered (req_order i r)) = if (j =? i) && (match get i (r_ordered r) with Some _ => true | None => false end) then Some true else get j (r_ordered r).
Proof.
  unfold req_order. destruct (get i (r_ordered r)) eqn:E; cbn [r_ordered].
  - rewrite get_set, andb_true_r. reflexivity.
  - rewrite andb_false_r. reflexivity.
Qed.
Lemma req_order_time i r : r_time (req_order i r) = r_time r.
Proof. unfold req_order. destruct (get i (r_ordered r)); reflexivity. Qed.
Lemma req_order_handled i r : r_handled (req_order i r) = r_handled r.
Proof. unfold req_order. destruct (get i (r_ordered r)); reflexivity. Qed.
Lemma req_order_nodup i r : NoDup (map fst (r_ordered r)) -> NoDup (map fst (r_ordered (req_order i r))).
Proof. intros N. unfold req_order. destruct (get i (r_ordered r)); [apply nodup_set|]; exact N. Qed.
Lemma req_order_false i r j l : (forall j, get j (r_ordered r) = Some false <-> In j l) ->
  (get j (r_ordered (req_order i r)) = Some false <-> In j (discard i l)).
Proof.
  intros H. rewrite req_order_get, discard_in. destruct (Nat.eqb_spec j i) as [->|N]; cbn [andb].
  - destruct (get i (r_ordered r)) eqn:E; [|split; [discriminate|tauto]]. split; [discriminate|tauto].
  - rewrite H. tauto.
Qed.

Lemma tinv_order c h now i k t kn r x : tinv c h now x -> now <= t -> get k (t_reqs x) = Some r ->
  tinv c (EOrdered i [k] t kn :: h) t (fst (tr_order i k t r x)).
Proof.
  intros H L E. apply (fun H => tinv_later c h now t x H L) in H. clear L.
  destruct (v_req _ _ _ _ H k r E) as (l & A1 & A2 & A3 & A4 & A5 & A6).
  assert (Hw : forall k', waiting (EOrdered i [k] t kn :: h) k' = if k' =? k then less i (waiting h k') else waiting h k').
  { intros k'. cbn [waiting existsb]. rewrite orb_false_r. reflexivity. }
  pose proof (req_order_nodup i r A2) as Nr.
  assert (Ball : by_all (req_order i r) = true <-> discard i l = []).
  { rewrite by_all_spec by exact Nr. split.
    - intros Hn. destruct (discard i l) as [|j y] eqn:Ed; [reflexivity|]. exfalso. apply (Hn j). apply (req_order_false i r j l A3).
      rewrite Ed. left. reflexivity.
    - intros Ed j Hj. apply (req_order_false i r j l A3) in Hj. rewrite Ed in Hj. destruct Hj. }
  assert (Hun : forall k', In k' (if i =? 0 then discard k (t_unordered x) else t_unordered x) <->
     exists t0 l0, (if k' =? k then less i (waiting h k') else waiting h k') = Some (t0, l0) /\ In 0 l0).
  { intros k'. destruct (Nat.eqb_spec k' k) as [->|N].
    - rewrite A1. destruct (Nat.eqb_spec i 0) as [->|N0].
      + rewrite discard_in. split; [tauto|]. intros (t0 & l0 & E0 & I0). apply less_some in E0. destruct E0 as (l1 & E0 & -> & _).
        apply discard_in in I0. tauto.
      + rewrite (v_unord _ _ _ _ H), A1. split.
        * intros (t0 & l0 & E0 & I0). injection E0 as <- <-. destruct (less i (Some (r_time r, l))) as [[t1 l1]|] eqn:El.
          -- apply less_some in El. destruct El as (l2 & E2 & -> & _). injection E2 as <- <-. exists (r_time r), (discard i l). split; [reflexivity|].
             apply discard_in. split; [exact I0|congruence].
          -- rewrite less_none in El. specialize (El _ _ eq_refl). assert (Hx : In 0 (discard i l)) by (apply discard_in; split; [exact I0|congruence]).
             rewrite El in Hx. destruct Hx.
        * intros (t0 & l0 & E0 & I0). apply less_some in E0. destruct E0 as (l2 & E2 & -> & _). injection E2 as <- <-.
          apply discard_in in I0. exists (r_time r), l. tauto.
    - rewrite <- (v_unord _ _ _ _ H). destruct (i =? 0); [rewrite discard_in; tauto|tauto]. }
  unfold tr_order. cbn [fst].
  destruct (by_all (req_order i r)) eqn:Eb; cbn [t_ids t_reqs t_unordered].
  - constructor; cbn [t_ids t_reqs t_unordered ids].
    + apply H.
    + apply H.
    + apply nodup_filter. apply nodup_set. apply H.
    + intros k' r' E'. rewrite get_del, get_set in E'. unfold req_ok. rewrite Hw. cbn [reported].
      destruct (k' =? k); [discriminate|]. exact (v_req _ _ _ _ H k' r' E').
    + intros k' E'. rewrite get_del, get_set in E'. rewrite Hw. destruct (k' =? k) eqn:Ek.
      * apply Nat.eqb_eq in Ek. subst k'. rewrite A1. apply less_none. intros t0 l0 E0. injection E0 as <- <-. apply Ball. reflexivity.
      * exact (v_none _ _ _ _ H k' E').
    + intros k'. rewrite Hw. apply Hun.
  - constructor; cbn [t_ids t_reqs t_unordered ids].
    + apply H.
    + apply H.
    + apply nodup_set. apply H.
    + intros k' r' E'. rewrite get_set in E'. unfold req_ok. rewrite Hw. cbn [reported].
      destruct (Nat.eqb_spec k' k) as [->|N]; [|exact (v_req _ _ _ _ H k' r' E')]. injection E' as <-.
      exists (discard i l). rewrite req_order_time, req_order_handled. split.
      * rewrite A1. apply less_some. exists l. split; [reflexivity|]. split; [reflexivity|]. intros Ed. apply Ball in Ed. congruence.
      * split; [exact Nr|]. split; [intros j; apply req_order_false; exact A3|]. split; [|split; [exact A5|exact A6]].
        rewrite req_order_get. destruct ((0 =? i) && _); [discriminate|exact A4].
    + intros k' E'. rewrite get_set in E'. rewrite Hw. destruct (k' =? k); [discriminate|]. exact (v_none _ _ _ _ H k' E').
    + intros k'. rewrite Hw. apply Hun.
Qed.

(** removal of an instance *)
Lemma drops_ids gone : forall x, t_ids (fold_left (fun x k => tr_drop k x) gone x) = t_ids x.
Proof. induction gone as [|k l IH]; intros x; cbn [fold_left]; [reflexivity|]. rewrite IH. reflexivity. Qed.
Lemma drops_get gone k : forall x, get k (t_reqs (fold_left (fun x k => tr_drop k x) gone x)) =
  if existsb (Nat.eqb k) gone then None else get k (t_reqs x).
Proof.
  induction gone as [|k' l IH]; intros x; cbn [fold_left existsb]; [reflexivity|]. rewrite IH. cbn [tr_drop t_reqs]. rewrite get_del.
  destruct (k =? k'); cbn [orb]; [destruct (existsb (Nat.eqb k) l)|]; reflexivity.
Qed.
Lemma drops_nodup gone : forall x, NoDup (map fst (t_reqs x)) -> NoDup (map fst (t_reqs (fold_left (fun x k => tr_drop k x) gone x))).
Proof. induction gone as [|k l IH]; intros x H; cbn [fold_left]; [exact H|]. apply IH. apply nodup_filter. exact H. Qed.
Lemma drops_unord gone k : forall x, In k (t_unordered (fold_left (fun x k => tr_drop k x) gone x)) <-> In k (t_unordered x) /\ ~ In k gone.
Proof.
  induction gone as [|k' l IH]; intros x; cbn [fold_left In]; [tauto|]. rewrite IH. cbn [tr_drop t_unordered]. rewrite discard_in. intuition congruence.
Qed.
Lemma get_map {V W} (f : V -> W) k (d : dict V) : get k (map (fun x => (fst x, f (snd x))) d) = option_map f (get k d).
Proof. induction d as [|[k' v] d IH]; cbn; [reflexivity|]. destruct (k =? k'); [reflexivity|exact IH]. Qed.

Lemma tinv_remove c h now i x : tinv c h now x -> In i (ids h) -> i <> 0 ->
  exists x', tr_remove i x = Some x' /\ tinv c (ERemove i :: h) now x'.
Proof.
  intros H Hin Hi0. unfold tr_remove. set (reqs := map (fun kr => (fst kr, req_remove i (snd kr))) (t_reqs x)).
  set (gone := map fst (filter (fun kr => by_all (snd kr)) reqs)). set (x0 := Tracker (t_ids x) reqs (t_unordered x)).
  rewrite drops_ids. cbn [x0 t_ids]. rewrite (v_ids _ _ _ _ H). pose proof Hin as Hb. apply mem_in in Hb. rewrite Hb.
  eexists. split; [reflexivity|].
  assert (Nk : NoDup (map fst reqs)).
  { unfold reqs. rewrite map_map. cbn [fst]. apply H. }
  assert (G : forall k, get k reqs = option_map (req_remove i) (get k (t_reqs x))) by (intros k; apply get_map).
  assert (Hg : forall k, In k gone <-> exists r, get k (t_reqs x) = Some r /\ by_all (req_remove i r) = true).
  { intros k. unfold gone. rewrite in_map_iff. split.
    - intros ([k' r'] & <- & Hf). apply filter_In in Hf. destruct Hf as (Hf & Hb'). apply (in_get k' reqs r' Nk) in Hf.
      rewrite G in Hf. cbn [fst snd] in *. destruct (get k' (t_reqs x)) as [r|]; [|discriminate]. injection Hf as <-. eauto.
    - intros (r & E & Hb'). exists (k, req_remove i r). split; [reflexivity|]. apply filter_In. split; [|exact Hb'].
      apply get_in. rewrite G, E. reflexivity. }
  assert (Hr : forall k r, get k (t_reqs x) = Some r -> exists l, req_ok c h now k r /\ waiting h k = Some (r_time r, l) /\
     (forall j, get j (r_ordered (req_remove i r)) = Some false <-> In j (discard i l)) /\ NoDup (map fst (r_ordered (req_remove i r))) /\
     (by_all (req_remove i r) = true <-> discard i l = [])).
  { intros k r E. pose proof (v_req _ _ _ _ H k r E) as Hok. destruct Hok as (l & A1 & A2 & A3 & A4 & A5 & A6).
    assert (B1 : forall j, get j (r_ordered (req_remove i r)) = Some false <-> In j (discard i l)).
    { intros j. cbn [req_remove r_ordered]. rewrite get_del, discard_in. destruct (Nat.eqb_spec j i) as [->|N].
      - split; [discriminate|tauto].
      - rewrite A3. tauto. }
    assert (B2 : NoDup (map fst (r_ordered (req_remove i r)))) by (apply nodup_filter; exact A2).
    exists l. split; [exists l; auto 6|]. split; [exact A1|]. split; [exact B1|]. split; [exact B2|].
    rewrite by_all_spec by exact B2. split.
    - intros Hn. destruct (discard i l) as [|j y] eqn:Ed; [reflexivity|]. exfalso. apply (Hn j). apply B1. left. reflexivity.
    - intros Ed j Hj. apply B1 in Hj. rewrite Ed in Hj. destruct Hj. }
  constructor; cbn [t_ids t_reqs t_unordered ids].
  - reflexivity.
  - apply discard_in. split; [apply H|congruence].
  - apply drops_nodup. exact Nk.
  - intros k r' E. rewrite drops_get in E. cbn [x0 t_reqs] in E. rewrite G in E.
    destruct (existsb (Nat.eqb k) gone) eqn:Eg; [discriminate|]. destruct (get k (t_reqs x)) as [r|] eqn:Ek; [|discriminate].
    injection E as <-. destruct (Hr k r Ek) as (l & (l' & A1' & A2 & A3 & A4 & A5 & A6) & A1 & B1 & B2 & B3).
    exists (discard i l). cbn [waiting reported]. rewrite A1. split.
    + apply less_some. exists l. split; [reflexivity|]. split; [reflexivity|]. intros Ed. apply B3 in Ed.
      assert (In k gone) as Hk by (apply Hg; eauto). apply mem_in in Hk. congruence.
    + split; [exact B2|]. split; [exact B1|]. split; [|split; [exact A5|exact A6]].
      cbn [req_remove r_ordered]. rewrite get_del. destruct (Nat.eqb_spec 0 i); [congruence|exact A4].
  - intros k E. rewrite drops_get in E. cbn [x0 t_reqs] in E. rewrite G in E. cbn [waiting].
    destruct (get k (t_reqs x)) as [r|] eqn:Ek.
    + destruct (existsb (Nat.eqb k) gone) eqn:Eg; [|discriminate]. apply mem_in in Eg. apply Hg in Eg. destruct Eg as (r0 & E0 & Eb).
      assert (r0 = r) by congruence. subst r0. destruct (Hr k r Ek) as (l & _ & A1 & _ & _ & B3). rewrite A1. apply less_none.
      intros t0 l0 E1. injection E1 as <- <-. apply B3. exact Eb.
    + rewrite (v_none _ _ _ _ H k Ek). reflexivity.
  - intros k. rewrite drops_unord. cbn [x0 t_unordered waiting]. rewrite (v_unord _ _ _ _ H). split.
    + intros ((t & l & E & I0) & Ng). exists t, (discard i l).
      assert (Hx : In 0 (discard i l)) by (apply discard_in; split; [exact I0|congruence]). split; [|exact Hx].
      apply less_some. exists l. split; [exact E|]. split; [reflexivity|]. intros Ed. rewrite Ed in Hx. destruct Hx.
    + intros (t & l & E & I0). apply less_some in E. destruct E as (l0 & E & -> & _). pose proof I0 as I1. apply discard_in in I0.
      split; [exists t, l0; tauto|]. intros Hk. apply Hg in Hk. destruct Hk as (r & Er & Eb).
      destruct (Hr k r Er) as (l1 & _ & A1 & _ & _ & B3). rewrite A1 in E. injection E as <- <-. apply B3 in Eb. rewrite Eb in I1. destruct I1.
Qed.

(** checks *)
Lemma unhandled_spec c h now x : tinv c h now x -> forall d, incl d (t_reqs x) -> exists l, unhandled d = Some l /\
  forall k t, In (k, t) l <-> exists r, In (k, r) d /\ r_time r = t /\ get 0 (r_ordered r) = Some false /\ r_handled r = false.
Proof.
  intros H. induction d as [|[k r] d IH]; intros Hd; cbn [unhandled].
  - exists []. split; [reflexivity|]. intros k t. split; [intros []|intros (r & [] & _)].
  - destruct IH as (l & -> & Hl); [intros y Hy; apply Hd; right; exact Hy|].
    assert (E : get k (t_reqs x) = Some r) by (apply in_get; [apply H|apply Hd; left; reflexivity]).
    destruct (v_req _ _ _ _ H k r E) as (l0 & A1 & A2 & A3 & A4 & A5 & A6).
    destruct (get 0 (r_ordered r)) as [o|] eqn:E0; [|congruence].
    eexists. split; [reflexivity|]. intros k' t'. destruct (negb o && negb (r_handled r)) eqn:Eo.
    + apply andb_prop in Eo. destruct Eo as (Eo1 & Eo2). apply negb_true_iff in Eo1. apply negb_true_iff in Eo2. subst o. cbn [In]. rewrite Hl. split.
      * intros [Ex|(r' & I1 & I2)]; [injection Ex as <- <-; exists r; auto|exists r'; tauto].
      * intros (r' & [Ex|I1] & I2 & I3 & I4); [injection Ex as <- <-; left; congruence|right; exists r'; auto].
    + rewrite Hl. split.
      * intros (r' & I1 & I2). exists r'. split; [right; exact I1|exact I2].
      * intros (r' & [Ex|I1] & I2 & I3 & I4).
        -- injection Ex as <- <-. rewrite E0 in I3. injection I3 as ->. rewrite I4 in Eo. discriminate.
        -- exists r'. auto.
Qed.

Lemma handles_ids ks : forall x, t_ids (fold_left (fun x k => tr_handle k x) ks x) = t_ids x /\ t_unordered (fold_left (fun x k => tr_handle k x) ks x) = t_unordered x.
Proof.
  induction ks as [|k l IH]; intros x; cbn [fold_left]; [auto|]. destruct (IH (tr_handle k x)) as (E1 & E2). rewrite E1, E2.
  unfold tr_handle. destruct (get k (t_reqs x)); auto.
Qed.
Lemma handles_get ks k : forall x, get k (t_reqs (fold_left (fun x k => tr_handle k x) ks x)) =
  match get k (t_reqs x) with
  | Some r => Some (Req (r_time r) (r_ordered r) (r_handled r || existsb (Nat.eqb k) ks))
  | None => None
  end.
Proof.
  induction ks as [|k' l IH]; intros x; cbn [fold_left existsb].
  - destruct (get k (t_reqs x)) as [[a b d]|]; [cbn; rewrite orb_false_r|]; reflexivity.
  - rewrite IH. unfold tr_handle. destruct (get k' (t_reqs x)) as [r'|] eqn:E'; cbn [t_reqs].
    + rewrite get_set. destruct (Nat.eqb_spec k k') as [->|N]; [|reflexivity]. rewrite E'. cbn [r_time r_ordered r_handled orb].
      rewrite orb_true_r. reflexivity.
    + destruct (Nat.eqb_spec k k') as [->|N]; [rewrite E'; reflexivity|reflexivity].
Qed.
Lemma handles_nodup ks : forall x, NoDup (map fst (t_reqs x)) -> NoDup (map fst (t_reqs (fold_left (fun x k => tr_handle k x) ks x))).
Proof.
  induction ks as [|k l IH]; intros x H; cbn [fold_left]; [exact H|]. apply IH. unfold tr_handle.
  destruct (get k (t_reqs x)); cbn [t_reqs]; [apply nodup_set|]; exact H.
Qed.

(** the requests that a check reports *)
Definition due (c : config) (h : list event) (t k : nat) : Prop :=
  exists tk l, waiting h k = Some (tk, l) /\ In 0 l /\ check_freq c < t - tk /\ reported c h k = false.

Lemma tinv_check c h now t x : tinv c h now x -> now <= t -> exists l, unhandled (t_reqs x) = Some l /\
  let late := map fst (filter (fun kt => check_freq c <? t - snd kt) l) in
  (forall k, In k late <-> due c h t k) /\
  tinv c (ECheck t :: h) t (fold_left (fun x k => tr_handle k x) late x).
Proof.
  intros H L. apply (fun H => tinv_later c h now t x H L) in H. clear L.
  destruct (unhandled_spec c h t x H (t_reqs x) (incl_refl _)) as (l & El & Hl). exists l. split; [exact El|].
  set (late := map fst (filter (fun kt => check_freq c <? t - snd kt) l)). cbv zeta.
  assert (Hlate : forall k, In k late <-> due c h t k).
  { intros k. unfold late. rewrite in_map_iff. split.
    - intros ([k' tk] & <- & Hf). apply filter_In in Hf. destruct Hf as (Hf & Ht). cbn [snd fst] in *. apply Nat.ltb_lt in Ht.
      apply Hl in Hf. destruct Hf as (r & Hr & <- & H0 & Hh). apply (in_get k' (t_reqs x) r (v_nodup _ _ _ _ H)) in Hr.
      destruct (v_req _ _ _ _ H k' r Hr) as (l0 & A1 & A2 & A3 & A4 & A5 & A6). exists (r_time r), l0.
      split; [exact A1|]. split; [apply A3; exact H0|]. split; [exact Ht|congruence].
    - intros (tk & l0 & E & I0 & Ht & Hrep). destruct (get k (t_reqs x)) as [r|] eqn:Er.
      + destruct (v_req _ _ _ _ H k r Er) as (l1 & A1 & A2 & A3 & A4 & A5 & A6). rewrite A1 in E. injection E as <- <-.
        exists (k, r_time r). split; [reflexivity|]. apply filter_In. split; [|cbn [snd]; apply Nat.ltb_lt; exact Ht].
        apply Hl. exists r. split; [apply get_in; exact Er|]. split; [reflexivity|]. split; [apply A3; exact I0|congruence].
      + rewrite (v_none _ _ _ _ H k Er) in E. discriminate. }
  split; [exact Hlate|].
  destruct (handles_ids late x) as (E1 & E2).
  constructor.
  - rewrite E1. apply H.
  - apply H.
  - apply handles_nodup. apply H.
  - intros k r' E. rewrite handles_get in E. destruct (get k (t_reqs x)) as [r|] eqn:Er; [|discriminate]. injection E as <-.
    destruct (v_req _ _ _ _ H k r Er) as (l1 & A1 & A2 & A3 & A4 & A5 & A6). exists l1. cbn [waiting reported r_time r_ordered r_handled].
    do 5 (split; [assumption|]). rewrite A6, A1. destruct (reported c h k) eqn:Erep; [reflexivity|]. cbn [orb].
    apply eq_true_iff_eq. rewrite mem_in, Hlate, andb_true_iff, mem_in, Nat.ltb_lt. split.
    + intros (tk & l0 & E & I0 & Ht & _). rewrite A1 in E. injection E as <- <-. auto.
    + intros (I0 & Ht). exists (r_time r), l1. auto.
  - intros k E. rewrite handles_get in E. destruct (get k (t_reqs x)) as [r|] eqn:Er; [discriminate|]. cbn [waiting]. exact (v_none _ _ _ _ H k Er).
  - intros k. rewrite E2. cbn [waiting]. apply H.
Qed.
(** ** Measures *)
Lemma trun_app p xs ys : forall s, Tput_Model.run p s (xs ++ ys) = match Tput_Model.run p s xs with None => None | Some s => Tput_Model.run p s ys end.
Proof. induction xs as [|x xs IH]; intros s; cbn; [reflexivity|]. destruct (do_call p s x); [apply IH|reflexivity]. Qed.
Lemma adds_app xs ys : adds (xs ++ ys) = adds xs ++ adds ys.
Proof. unfold adds. apply flat_map_app. Qed.

Definition good (c : config) : Prop := 0 < window (tput c) /\ 2 <= min_cnt (tput c).

(** the state [th] of a measure started at [t0], with the requests [reqs], until [now] *)
Definition tput_ok (c : config) (t0 : nat) (reqs : list nat) (now : nat) (th : tm) : Prop :=
  exists cs, Tput_Model.run (tput c) (init t0) cs = Some th /\ adds cs = reqs /\ StronglySorted le (t0 :: map time cs ++ [now]).

Lemma sorted_snoc (l : list nat) : forall a b, StronglySorted le (l ++ [a]) -> a <= b -> StronglySorted le ((l ++ [a]) ++ [b]).
Proof.
  induction l as [|x l IH]; intros a b H L; cbn in *.
  - constructor; [constructor; constructor|constructor; [exact L|constructor]].
  - inversion H as [|? ? H1 H2]; subst. constructor; [apply IH; assumption|].
    apply Forall_app. split; [exact H2|]. constructor; [|constructor]. rewrite Forall_forall in H2. specialize (H2 a).
    assert (x <= a) by (apply H2; apply in_or_app; right; left; reflexivity). lia.
Qed.
Lemma sorted_last (l : list nat) : forall a b, StronglySorted le (l ++ [a]) -> a <= b -> StronglySorted le (l ++ [b]).
Proof.
  induction l as [|x l IH]; intros a b H L; cbn in *.
  - constructor; constructor.
  - inversion H as [|? ? H1 H2]; subst. constructor; [apply (IH a b); assumption|].
    apply Forall_app in H2. destruct H2 as (H2 & H3). inversion H3; subst. apply Forall_app. split; [exact H2|].
    constructor; [lia|constructor].
Qed.

Lemma tput_later c t0 reqs now now' th : tput_ok c t0 reqs now th -> now <= now' -> tput_ok c t0 reqs now' th.
Proof.
  intros (cs & E & A & Hs) L. exists cs. split; [exact E|]. split; [exact A|].
  apply (sorted_last (t0 :: map time cs) now now' Hs L).
Qed.

Lemma tput_call c t0 reqs now th k : good c -> tput_ok c t0 reqs now th -> now <= time k ->
  exists th', do_call (tput c) th k = Some th' /\ tput_ok c t0 (reqs ++ adds [k]) (time k) th'.
Proof.
  intros (Hw & Hn) (cs & E & A & Hs) L.
  destruct (C72_total (tput c) t0 (cs ++ [k]) 0 Hw Hn) as (v & s1 & s2 & E1 & _).
  rewrite trun_app, E in E1. cbn [Tput_Model.run] in E1. destruct (do_call (tput c) th k) as [th'|] eqn:Ed; [|discriminate].
  exists th'. split; [reflexivity|]. exists (cs ++ [k]). split; [rewrite trun_app, E; cbn [Tput_Model.run]; rewrite Ed; reflexivity|].
  split; [rewrite adds_app, A; reflexivity|]. rewrite map_app. cbn [map].
  apply (sorted_snoc (t0 :: map time cs) (time k) (time k)); [|lia].
  apply (sorted_last (t0 :: map time cs) now (time k) Hs L).
Qed.

Definition oeq (v w : option Q) : Prop :=
  match v, w with Some x, Some y => (x == y)%Q | None, None => True | _, _ => False end.

Definition speed_of (c : config) (t0 : nat) (reqs : list nat) (t : nat) : option Q :=
  let w := window (tput c) in
  let n := min_cnt (tput c) in
  let l := counts w t0 reqs (window_of w t0 t) in
  if (t <? t0 + w * n) || reviving n l then None
  else Some (ema (2 # Pos.of_succ_nat n) (map (fun x => x / (Z.of_nat w # 1))%Q (levelled n l))).

Lemma tput_get c t0 reqs now th t : good c -> tput_ok c t0 reqs now th -> now <= t ->
  exists v th', get_throughput (tput c) t th = Some (v, th') /\ tput_ok c t0 reqs t th' /\ oeq v (speed_of c t0 reqs t) /\
    forall q, v = Some q -> (0 <= q)%Q.
Proof.
  intros Hg Ho L. pose proof Hg as (Hw & Hn).
  destruct (tput_call c t0 reqs now th (Get t) Hg Ho L) as (th' & E & Ho'). cbn [do_call] in E.
  destruct (get_throughput (tput c) t th) as [[v th2]|] eqn:Eg; [|discriminate]. injection E as ->.
  exists v, th'. split; [reflexivity|]. cbn [adds flat_map app time] in Ho'. rewrite app_nil_r in Ho'. split; [exact Ho'|].
  destruct Ho as (cs & Er & A & Hs). assert (Hin : in_order t0 cs t) by (exact (sorted_last (t0 :: map time cs) now t Hs L)).
  destruct (C72_measure (tput c) t0 cs t Hw Hn Hin) as (v' & (s1 & s2 & E1 & E2) & Hv).
  rewrite Er in E1. injection E1 as <-. rewrite Eg in E2. injection E2 as -> <-.
  split.
  - unfold seen in Hv. rewrite A in Hv. unfold speed_of.
    destruct (_ || _); [subst v'; exact Logic.I|]. destruct Hv as (q & -> & Hq). exact Hq.
  - intros q ->.
    refine (proj1 (C72_bounds (tput c) t0 cs t q (list_max (seen (tput c) t0 cs t)) Hw Hn Hin _ _)).
    + exists th, th'. split; assumption.
    + intros x Hx. pose proof (list_max_le (seen (tput c) t0 cs t) (list_max (seen (tput c) t0 cs t))) as (Hm & _).
      specialize (Hm (le_n _)). rewrite Forall_forall in Hm. exact (Hm x Hx).
Qed.

Lemma tput_init c t0 : tput_ok c t0 [] t0 (init t0).
Proof.
  exists []. split; [reflexivity|]. split; [reflexivity|]. cbn. constructor; [constructor; constructor|constructor; [lia|constructor]].
Qed.

Definition lat_ok (c : config) (ds : list nat) (l : lat) : Prop :=
  l_total l = length ds /\ l_avg l = ema (1 # Pos.of_succ_nat (min_latency c)) (map (fun d => Z.of_nat d # 1) ds).
Lemma lat_add c ds d l : lat_ok c ds l -> lat_ok c (ds ++ [d]) (add_duration c d l).
Proof.
  intros (H1 & H2). unfold lat_ok, add_duration. cbn [l_total l_avg]. rewrite app_length. cbn [length]. split; [lia|].
  rewrite map_app. unfold ema. rewrite fold_left_app. cbn [map fold_left]. rewrite H2. reflexivity.
Qed.

Record minv (c : config) (h : list event) (now : nat) (m : mon) : Prop := {
  i_ids : m_ids m = ids h;
  i_tkeys : map fst (m_tput m) = ids h;
  i_lkeys : map fst (m_lat m) = ids h;
  i_tput : forall i th, get i (m_tput m) = Some th -> tput_ok c (base h) (times h i) now th;
  i_lat : forall i l, get i (m_lat m) = Some l -> lat_ok c (durations h i) l;
  i_track : tinv c h now (m_track m) }.
Record ninv (h : list event) (m : mon) : Prop := {
  i_nkeys : map fst (m_num m) = ids h;
  i_num : forall i n d, get i (m_num m) = Some (n, d) -> n = number h i /\ (n = 0 -> d = 0) }.

Lemma minv_later c h now now' m : minv c h now m -> now <= now' -> minv c h now' m.
Proof.
  intros H L. constructor; try apply H.
  - intros i th E. exact (tput_later _ _ _ _ _ _ (i_tput _ _ _ _ H i th E) L).
  - exact (tinv_later _ _ _ _ _ (i_track _ _ _ _ H) L).
Qed.
Lemma minv_same c h now m h' : minv c h now m -> ids h' = ids h -> base h' = base h -> (forall k, waiting h' k = waiting h k) ->
  (forall i, times h' i = times h i) -> (forall i, durations h' i = durations h i) ->
  (forall k, waiting h k <> None -> reported c h' k = reported c h k) -> minv c h' now m.
Proof.
  intros H E1 E2 E3 E4 E5 E6. constructor; rewrite ?E1, ?E2; try apply H.
  - intros i th. rewrite E4. apply H.
  - intros i l. rewrite E5. apply H.
  - apply (tinv_same c h now (m_track m) h' (i_track _ _ _ _ H) E1 E3 E6).
Qed.

Lemma get_some {V} k (d : dict V) : In k (map fst d) -> exists v, get k d = Some v.
Proof. intros H. destruct (get k d) eqn:E; [eauto|]. apply get_none in E. tauto. Qed.
Lemma set_keys_eq {V} k (v : V) d : In k (map fst d) -> map fst (set k v d) = map fst d.
Proof.
  induction d as [|[k' v'] d IH]; cbn; [intros []|]. intros H. destruct (Nat.eqb_spec k k') as [->|N]; cbn; [reflexivity|].
  f_equal. apply IH. destruct H as [->|H]; [congruence|exact H].
Qed.
Lemma set_keys_add {V} k (v : V) d : map fst (set k v d) = add k (map fst d).
Proof.
  unfold add. destruct (existsb (Nat.eqb k) (map fst d)) eqn:E.
  - apply set_keys_eq. apply mem_in. exact E.
  - assert (G : get k d = None). { apply get_none. intros H. apply mem_in in H. congruence. }
    rewrite (set_new k v d G), map_app. reflexivity.
Qed.
Lemma del_keys {V} k (d : dict V) : map fst (del k d) = discard k (map fst d).
Proof.
  unfold del, discard. induction d as [|[k' v] d IH]; cbn; [reflexivity|]. destruct (k' =? k); cbn; [exact IH|f_equal; exact IH].
Qed.
Lemma sets_get {V} (v : V) l k : forall d, get k (fold_left (fun d i => set i v d) l d) = if existsb (Nat.eqb k) l then Some v else get k d.
Proof.
  induction l as [|a l IH]; intros d; cbn [fold_left existsb]; [reflexivity|]. rewrite IH, get_set.
  destruct (k =? a); cbn [orb]; [destruct (existsb (Nat.eqb k) l)|]; reflexivity.
Qed.
Lemma sets_keys {V} (v : V) l : forall d, incl l (map fst d) -> map fst (fold_left (fun d i => set i v d) l d) = map fst d.
Proof.
  induction l as [|a l IH]; intros d H; cbn [fold_left]; [reflexivity|].
  assert (E : map fst (set a v d) = map fst d) by (apply set_keys_eq; apply H; left; reflexivity).
  rewrite IH; [exact E|]. rewrite E. intros x Hx. apply H. right. exact Hx.
Qed.

(** a batch: the requests one after the other *)
Lemma times_split h i k ks t kn x :
  times (EOrdered i ks t kn :: EOrdered i [k] t kn :: h) x = times (EOrdered i (k :: ks) t kn :: h) x.
Proof.
  cbn [times]. change (has i (EOrdered i [k] t kn :: h)) with (has i h). destruct (i =? x) eqn:E; cbn [andb]; [|reflexivity].
  apply Nat.eqb_eq in E. subst x. destruct (has i h); [|reflexivity]. cbn [takes]. rewrite app_nil_r, map_app, app_assoc. reflexivity.
Qed.
Lemma durations_split h i k ks t kn x :
  durations (EOrdered i ks t kn :: EOrdered i [k] t kn :: h) x = durations (EOrdered i (k :: ks) t kn :: h) x.
Proof.
  cbn [durations]. change (has i (EOrdered i [k] t kn :: h)) with (has i h). destruct (i =? x) eqn:E; cbn [andb]; [|reflexivity].
  apply Nat.eqb_eq in E. subst x. destruct (has i h); [|reflexivity]. cbn [takes]. rewrite app_nil_r, filter_app, map_app, app_assoc. reflexivity.
Qed.

Lemma order_one c h now i k t kn r m th d0 : good c -> minv c h now m -> now <= t -> In i (ids h) ->
  get k (t_reqs (m_track m)) = Some r -> get i (m_tput m) = Some th ->
  exists th', add_request (tput c) t th = Some th' /\ (snd (tr_order i k t r (m_track m)) = t - r_time r) /\
    forall l l', get i (m_lat m) = Some l ->
    l' = (if existsb (Nat.eqb k) kn then set i (add_duration c (t - r_time r) l) (m_lat m) else m_lat m) ->
    minv c (EOrdered i [k] t kn :: h) t (Mon (m_ids m) d0 (set i th' (m_tput m)) l' (fst (tr_order i k t r (m_track m))) (m_last m)).
Proof.
  intros Hg H L Hi Ek Et.
  destruct (tput_call c (base h) (times h i) now th (Add t) Hg (i_tput _ _ _ _ H i th Et) L) as (th' & Ea & Ho). cbn [do_call time adds flat_map app] in Ea, Ho.
  exists th'. split; [exact Ea|]. split; [reflexivity|]. intros l l' El ->.
  destruct (v_req _ _ _ _ (i_track _ _ _ _ H) k r Ek) as (w & A1 & _).
  assert (Hh : has i h = true) by (apply mem_in; exact Hi).
  assert (HT : forall j, times (EOrdered i [k] t kn :: h) j = if j =? i then times h i ++ [t] else times h j).
  { intros j. cbn [times takes]. rewrite Hh, andb_true_r, (Nat.eqb_sym i j). destruct (Nat.eqb_spec j i) as [->|]; [|reflexivity].
    rewrite A1. reflexivity. }
  assert (HD : forall j, durations (EOrdered i [k] t kn :: h) j = if (j =? i) && existsb (Nat.eqb k) kn then durations h i ++ [t - r_time r] else durations h j).
  { intros j. cbn [durations takes]. rewrite Hh, andb_true_r, (Nat.eqb_sym i j). destruct (Nat.eqb_spec j i) as [->|]; cbn [andb]; [|reflexivity].
    rewrite A1. cbn [app filter fst snd]. destruct (existsb (Nat.eqb k) kn); cbn [map]; [reflexivity|apply app_nil_r]. }
  constructor; cbn [m_ids m_tput m_lat m_track].
  - apply H.
  - rewrite set_keys_eq; [apply H|]. rewrite (i_tkeys _ _ _ _ H). exact Hi.
  - destruct (existsb (Nat.eqb k) kn); [rewrite set_keys_eq|]; try apply H. rewrite (i_lkeys _ _ _ _ H). exact Hi.
  - intros j th0 E. rewrite get_set in E. rewrite HT. cbn [base]. destruct (j =? i).
    + injection E as <-. exact Ho.
    + exact (tput_later _ _ _ _ _ _ (i_tput _ _ _ _ H j th0 E) L).
  - intros j l0 E. rewrite HD. destruct (existsb (Nat.eqb k) kn); [|rewrite andb_false_r; apply H; exact E].
    rewrite get_set in E. rewrite andb_true_r. destruct (j =? i).
    + injection E as <-. apply lat_add. apply H. exact El.
    + apply H. exact E.
  - exact (tinv_order c h now i k t kn r (m_track m) (i_track _ _ _ _ H) L Ek).
Qed.

Lemma skip_one c h now i k t kn m : minv c h now m -> now <= t ->
  get k (t_reqs (m_track m)) = None -> minv c (EOrdered i [k] t kn :: h) t m.
Proof.
  intros H L Ek. pose proof (v_none _ _ _ _ (i_track _ _ _ _ H) k Ek) as A1.
  apply (minv_later c h now t m) in H; [|exact L]. apply (minv_same c h t m _ H); try reflexivity.
  - intros x. cbn [waiting existsb]. rewrite orb_false_r. destruct (Nat.eqb_spec x k) as [->|]; [rewrite A1|]; reflexivity.
  - intros j. cbn [times takes]. destruct ((i =? j) && has i h); [|reflexivity]. rewrite A1. apply app_nil_r.
  - intros j. cbn [durations takes]. destruct ((i =? j) && has i h); [|reflexivity]. rewrite A1. apply app_nil_r.
Qed.

Lemma is_waiting_other h i k t kn x : x <> k -> is_waiting (EOrdered i [k] t kn :: h) x = is_waiting h x.
Proof. intros N. unfold is_waiting. cbn [waiting existsb]. rewrite orb_false_r, (proj2 (Nat.eqb_neq x k) N). reflexivity. Qed.
Lemma is_waiting_less h i k t kn : is_waiting (EOrdered i [k] t kn :: h) k = true -> is_waiting h k = true.
Proof. unfold is_waiting. cbn [waiting existsb]. rewrite Nat.eqb_refl. cbn [orb]. destruct (waiting h k) as [[? ?]|]; [reflexivity|]. cbn. congruence. Qed.

Lemma order_keys_spec c i t kn : good c -> forall ks h now m ds, minv c h now m -> now <= t -> In i (ids h) -> NoDup (map fst ds) ->
  exists m' ds', order_keys c i t kn ks m ds = Some (m', ds') /\ minv c (EOrdered i ks t kn :: h) t m' /\
    m_num m' = m_num m /\ m_last m' = m_last m /\ NoDup (map fst ds') /\
    forall x, In x (map fst ds') <-> In x (map fst ds) \/ (In x ks /\ is_waiting h x = true).
Proof.
  intros Hg. induction ks as [|k ks IH]; intros h now m ds H L Hi Nd; cbn [order_keys].
  - exists m, ds. split; [reflexivity|]. split; [|split; [reflexivity|split; [reflexivity|split; [exact Nd|intros x; cbn; tauto]]]].
    apply (minv_later c h now t m) in H; [|exact L]. apply (minv_same c h t m _ H); try reflexivity.
    + intros j. cbn [times takes]. destruct ((i =? j) && has i h); [apply app_nil_r|reflexivity].
    + intros j. cbn [durations takes]. destruct ((i =? j) && has i h); [apply app_nil_r|reflexivity].
  - set (h1 := EOrdered i [k] t kn :: h).
    assert (Hfin : forall m1, minv c (EOrdered i ks t kn :: h1) t m1 -> minv c (EOrdered i (k :: ks) t kn :: h) t m1).
    { intros m1 H1. apply (minv_same c _ t m1 _ H1); try reflexivity.
      - intros x. symmetry. apply waiting_split.
      - intros x. symmetry. apply times_split.
      - intros x. symmetry. apply durations_split. }
    destruct (get k (t_reqs (m_track m))) as [r|] eqn:Ek.
    + destruct (get_some i (m_tput m)) as (th & Et); [rewrite (i_tkeys _ _ _ _ H); exact Hi|].
      destruct (get_some i (m_lat m)) as (l & El); [rewrite (i_lkeys _ _ _ _ H); exact Hi|].
      destruct (order_one c h now i k t kn r m th (m_num m) Hg H L Hi Ek Et) as (th' & Ea & Ed & Hm).
      destruct (tr_order i k t r (m_track m)) as [x d] eqn:Eo. cbn [fst snd] in Ed, Hm. rewrite Et, Ea.
      assert (Hw : is_waiting h k = true).
      { unfold is_waiting. destruct (v_req _ _ _ _ (i_track _ _ _ _ H) k r Ek) as (w & A1 & _). rewrite A1. reflexivity. }
      set (l' := if existsb (Nat.eqb k) kn then set i (add_duration c (t - r_time r) l) (m_lat m) else m_lat m) in *.
      specialize (Hm l l' El eq_refl).
      destruct (IH h1 t (Mon (m_ids m) (m_num m) (set i th' (m_tput m)) l' x (m_last m)) (set k d ds) Hm (le_n t) Hi) as (m' & ds' & E' & H' & N1 & N2 & N3 & N4).
      { apply nodup_set. exact Nd. }
      exists m', ds'. split; [|split; [apply Hfin; exact H'|split; [exact N1|split; [exact N2|split; [exact N3|]]]]].
      * destruct (existsb (Nat.eqb k) kn); [rewrite El, Ed|]; rewrite <- E'; [rewrite Ed|]; reflexivity.
      * intros y. rewrite N4, set_keys. cbn [In]. split.
        -- intros [[->|Hy]|(Hy & Hwy)]; [auto|auto|]. right. split; [auto|]. destruct (Nat.eq_dec y k) as [->|N]; [exact Hw|].
           unfold h1 in Hwy. rewrite is_waiting_other in Hwy by exact N. exact Hwy.
        -- intros [Hy|([->|Hy] & Hwy)]; [auto|auto|]. destruct (Nat.eq_dec y k) as [->|N]; [auto|]. right. split; [exact Hy|].
           unfold h1. rewrite is_waiting_other by exact N. exact Hwy.
    + assert (Hm : minv c h1 t m) by (exact (skip_one c h now i k t kn m H L Ek)).
      assert (Hw : is_waiting h k = false).
      { unfold is_waiting. rewrite (v_none _ _ _ _ (i_track _ _ _ _ H) k Ek). reflexivity. }
      destruct (IH h1 t m ds Hm (le_n t) Hi Nd) as (m' & ds' & E' & H' & N1 & N2 & N3 & N4).
      exists m', ds'. split; [exact E'|split; [apply Hfin; exact H'|split; [exact N1|split; [exact N2|split; [exact N3|]]]]].
      intros y. rewrite N4. cbn [In]. split.
      * intros [Hy|(Hy & Hwy)]; [auto|]. right. split; [auto|]. destruct (Nat.eq_dec y k) as [->|N].
        -- apply is_waiting_less in Hwy. exact Hwy.
        -- unfold h1 in Hwy. rewrite is_waiting_other in Hwy by exact N. exact Hwy.
      * intros [Hy|([->|Hy] & Hwy)]; [auto|congruence|]. right. split; [exact Hy|]. destruct (Nat.eq_dec y k) as [->|N]; [congruence|].
        unfold h1. rewrite is_waiting_other by exact N. exact Hwy.
Qed.

Lemma length_keys (l : list nat) (f : nat -> bool) ks : NoDup l -> (forall x, In x l <-> In x ks /\ f x = true) ->
  length l = length (nodup Nat.eq_dec (filter f ks)).
Proof.
  intros N H. apply Permutation_length. apply NoDup_Permutation; [exact N|apply NoDup_nodup|].
  intros x. rewrite nodup_In, filter_In. apply H.
Qed.

Lemma request_ordered_spec c h now i ks t kn m : good c -> minv c h now m -> ninv h m -> now <= t -> In i (ids h) ->
  exists m', request_ordered c ks i t kn m = Some m' /\ minv c (EOrdered i ks t kn :: h) t m' /\ ninv (EOrdered i ks t kn :: h) m' /\ m_last m' = m_last m.
Proof.
  intros Hg H Hn L Hi. unfold request_ordered.
  destruct (order_keys_spec c i t kn Hg ks h now m [] H L Hi (NoDup_nil _)) as (m' & ds & -> & H' & N1 & N2 & N3 & N4).
  destruct (get_some i (m_num m)) as ([n d] & En); [rewrite (i_nkeys _ _ Hn); exact Hi|]. rewrite N1, En.
  eexists. split; [reflexivity|]. split; [|split; [|exact N2]].
  - constructor; cbn [m_ids m_tput m_lat m_track]; apply H'.
  - assert (Hl : length ds = length (nodup Nat.eq_dec (filter (is_waiting h) ks))).
    { rewrite <- (map_length fst ds). apply length_keys; [exact N3|]. intros x. rewrite N4. cbn. tauto. }
    constructor; cbn [m_num].
    + rewrite set_keys_eq; [apply Hn|]. rewrite (i_nkeys _ _ Hn). exact Hi.
    + intros j n' d' E. rewrite get_set in E. cbn [number].
      assert (Hh : has i h = true) by (apply mem_in; exact Hi). rewrite Hh, andb_true_r, (Nat.eqb_sym i j).
      destruct (Nat.eqb_spec j i) as [->|N]; [|exact (i_num _ _ Hn j n' d' E)].
      injection E as <- <-. destruct (i_num _ _ Hn i n d En) as (-> & Hd). rewrite <- Hl. split; [reflexivity|].
      intros Hz. destruct ds as [|x ds]; cbn in *; [|lia]. rewrite Nat.add_0_r in *. exact (Hd Hz).
Qed.

(** resets *)
Lemma minv_reset c t m h' : m_ids m = ids h' -> map fst (m_tput m) = ids h' -> map fst (m_lat m) = ids h' -> t_ids (m_track m) = ids h' ->
  In 0 (ids h') -> base h' = t -> (forall k, waiting h' k = None) -> (forall i, times h' i = []) -> (forall i, durations h' i = []) ->
  (forall i, number h' i = 0) -> minv c h' t (reset t m) /\ ninv h' (reset t m).
Proof.
  intros E1 E2 E3 E4 H0 Eb Hw Ht Hd Hn. split; constructor; cbn [reset m_ids m_tput m_lat m_track m_num].
  - exact E1.
  - rewrite sets_keys; [exact E2|]. rewrite E1, E2. apply incl_refl.
  - rewrite sets_keys; [exact E3|]. rewrite E1, E3. apply incl_refl.
  - intros i th E. rewrite sets_get in E. destruct (existsb (Nat.eqb i) (m_ids m)) eqn:Ei.
    + injection E as <-. rewrite Ht, Eb. apply tput_init.
    + apply get_in in E. apply (in_map fst) in E. cbn [fst] in E. rewrite E2, <- E1 in E. apply mem_in in E. congruence.
  - intros i l E. rewrite sets_get in E. destruct (existsb (Nat.eqb i) (m_ids m)) eqn:Ei.
    + injection E as <-. rewrite Hd. split; reflexivity.
    + apply get_in in E. apply (in_map fst) in E. cbn [fst] in E. rewrite E3, <- E1 in E. apply mem_in in E. congruence.
  - constructor; cbn [tr_reset t_ids t_reqs t_unordered].
    + exact E4.
    + exact H0.
    + constructor.
    + intros k r E. discriminate.
    + intros k _. apply Hw.
    + intros k. split; [intros []|]. intros (t0 & l & E & _). rewrite Hw in E. discriminate.
  - rewrite map_map. cbn [fst]. rewrite map_id. exact E1.
  - intros i n d E. apply get_in in E. apply in_map_iff in E. destruct E as (j & E & _). injection E as <- <- <-. rewrite Hn. split; [reflexivity|auto].
Qed.

(** ** Medians *)
Lemma is_zero_eq q : is_zero q = Qeq_bool q 0.
Proof.
  apply eq_true_iff_eq. unfold is_zero. rewrite andb_true_iff, !Qle_bool_iff, Qeq_bool_iff. split.
  - intros (A & B). apply Qle_antisym; assumption.
  - intros ->. split; apply Qle_refl.
Qed.

Lemma insert_in x l y : In y (insert x l) <-> y = x \/ In y l.
Proof.
  induction l as [|a l IH]; cbn; [intuition congruence|]. destruct (Qle_bool x a); cbn; [intuition congruence|]. rewrite IH. intuition congruence.
Qed.
Lemma sort_in l y : In y (sort l) <-> In y l.
Proof. induction l as [|a l IH]; cbn [sort fold_right In]; [tauto|]. fold (sort l). rewrite insert_in, IH. intuition congruence. Qed.
Lemma insert_length x l : length (insert x l) = S (length l).
Proof. induction l as [|a l IH]; cbn; [reflexivity|]. destruct (Qle_bool x a); cbn; [reflexivity|]. rewrite IH. reflexivity. Qed.
Lemma sort_length l : length (sort l) = length l.
Proof. induction l as [|a l IH]; cbn [sort fold_right length]; [reflexivity|]. fold (sort l). rewrite insert_length, IH. reflexivity. Qed.
Lemma insert_count f x l : length (filter f (insert x l)) = length (filter f (x :: l)).
Proof.
  induction l as [|a l IH]; [reflexivity|]. cbn [insert]. destruct (Qle_bool x a); [reflexivity|]. cbn [filter] in *.
  destruct (f a), (f x); cbn [length] in *; lia.
Qed.
Lemma sort_count f l : length (filter f (sort l)) = length (filter f l).
Proof.
  induction l as [|a l IH]; cbn [sort fold_right]; [reflexivity|]. fold (sort l). rewrite insert_count. cbn [filter].
  destruct (f a); cbn [length]; lia.
Qed.
Lemma insert_sorted x l : StronglySorted Qle l -> StronglySorted Qle (insert x l).
Proof.
  induction 1 as [|a l Hs IH Ha]; cbn [insert]; [constructor; constructor|]. destruct (Qle_bool x a) eqn:E.
  - apply Qle_bool_iff in E. constructor; [constructor; assumption|]. constructor; [exact E|].
    rewrite Forall_forall in Ha |- *. intros y Hy. apply Qle_trans with a; [exact E|exact (Ha y Hy)].
  - constructor; [exact IH|]. apply Forall_forall. intros y Hy. apply insert_in in Hy. destruct Hy as [->|Hy].
    + apply Qlt_le_weak. apply Qnot_le_lt. intros Hx. apply Qle_bool_iff in Hx. congruence.
    + rewrite Forall_forall in Ha. exact (Ha y Hy).
Qed.
Lemma sort_sorted l : StronglySorted Qle (sort l).
Proof. induction l as [|a l IH]; cbn [sort fold_right]; [constructor|]. apply insert_sorted. exact IH. Qed.

Lemma sorted_mid (a : list Q) m b : StronglySorted Qle (a ++ m :: b) -> (forall x, In x a -> (x <= m)%Q) /\ (forall x, In x b -> (m <= x)%Q).
Proof.
  induction a as [|y a IH]; cbn; intros H; inversion H as [|? ? H1 H2]; subst; rewrite Forall_forall in H2.
  - split; [intros x []|]. exact H2.
  - destruct (IH H1) as (I1 & I2). split; [|exact I2]. intros x [<-|Hx]; [|exact (I1 x Hx)]. apply H2. apply in_or_app. right. left. reflexivity.
Qed.
Lemma filter_none {A} (f : A -> bool) l : (forall x, In x l -> f x = false) -> filter f l = [].
Proof. induction l as [|x l IH]; cbn; intros H; [reflexivity|]. rewrite (H x) by (left; reflexivity). apply IH. intros y Hy. apply H. right. exact Hy. Qed.
Lemma filter_all {A} (f : A -> bool) l : (forall x, In x l -> f x = true) -> filter f l = l.
Proof. induction l as [|x l IH]; cbn; intros H; [reflexivity|]. rewrite (H x) by (left; reflexivity). f_equal. apply IH. intros y Hy. apply H. right. exact Hy. Qed.
Lemma filter_le {A} (f : A -> bool) l : length (filter f l) <= length l.
Proof. induction l as [|x l IH]; cbn; [lia|]. destruct (f x); cbn; lia. Qed.

Lemma place_sorted j l : j < length l -> at_place j l (nth j (sort l) 0%Q).
Proof.
  intros Hj. unfold at_place, below, upto. rewrite <- !(sort_count _ l). rewrite <- sort_length in Hj.
  pose proof (sort_sorted l) as Hs. destruct (nth_split (sort l) 0%Q Hj) as (a & b & E & Hl). set (m := nth j (sort l) 0%Q) in *.
  rewrite E in Hs |- *. destruct (sorted_mid a m b Hs) as (Ha & Hb). rewrite !filter_app. cbn [filter].
  assert (Hm : Qle_bool m m = true) by (apply Qle_bool_iff; apply Qle_refl). rewrite Hm. cbn [negb].
  rewrite (filter_none (fun x => negb (Qle_bool m x)) b). 2:{ intros x Hx. apply negb_false_iff. apply Qle_bool_iff. exact (Hb x Hx). }
  rewrite (filter_all (fun x => Qle_bool x m) a). 2:{ intros x Hx. apply Qle_bool_iff. exact (Ha x Hx). }
  rewrite !app_length. cbn [length]. pose proof (filter_le (fun x => negb (Qle_bool m x)) a). lia.
Qed.

Lemma place_in j l m : at_place j l m -> exists x, In x l /\ (x == m)%Q.
Proof.
  intros (H1 & H2). unfold below, upto in *. assert (Hlt : length (filter (fun x => negb (Qle_bool m x)) l) < length (filter (fun x => Qle_bool x m) l)) by lia. clear H1 H2.
  induction l as [|a l IH]; cbn in Hlt; [lia|]. destruct (Qle_bool m a) eqn:E1; destruct (Qle_bool a m) eqn:E2; cbn in Hlt.
  - exists a. split; [left; reflexivity|]. apply Qle_bool_iff in E1. apply Qle_bool_iff in E2. apply Qle_antisym; assumption.
  - destruct IH as (x & Hx & Ex); [lia|]. exists x. split; [right; exact Hx|exact Ex].
  - destruct IH as (x & Hx & Ex); [lia|]. exists x. split; [right; exact Hx|exact Ex].
  - destruct IH as (x & Hx & Ex); [lia|]. exists x. split; [right; exact Hx|exact Ex].
Qed.

Lemma upto_below m m' l : (m < m')%Q -> upto m l <= below m' l.
Proof.
  intros H. unfold upto, below. induction l as [|a l IH]; cbn; [lia|].
  destruct (Qle_bool a m) eqn:E1; destruct (Qle_bool m' a) eqn:E2; cbn; try lia.
  apply Qle_bool_iff in E1. apply Qle_bool_iff in E2. exfalso. apply (Qlt_not_le _ _ H). apply Qle_trans with a; assumption.
Qed.
Lemma place_unique j l m m' : at_place j l m -> at_place j l m' -> (m == m')%Q.
Proof.
  intros (A1 & A2) (B1 & B2). destruct (Q_dec m m') as [[H|H]|H]; [| |exact H].
  - pose proof (upto_below m m' l H). lia.
  - pose proof (upto_below m' m l H). lia.
Qed.

Lemma Qle_bool_eq a b a' b' : (a == a')%Q -> (b == b')%Q -> Qle_bool a b = Qle_bool a' b'.
Proof. intros E1 E2. apply eq_true_iff_eq. rewrite !Qle_bool_iff, E1, E2. tauto. Qed.
Lemma place_eq j l l' m m' : Forall2 Qeq l l' -> (m == m')%Q -> at_place j l m -> at_place j l' m'.
Proof.
  intros F E. unfold at_place.
  assert (H : below m l = below m' l' /\ upto m l = upto m' l').
  { induction F as [|x y l l' Hx F (IH1 & IH2)]; [split; reflexivity|]. unfold below, upto in *. cbn [filter].
    rewrite (Qle_bool_eq m x m' y E Hx), (Qle_bool_eq x m y m' Hx E). destruct (Qle_bool m' y), (Qle_bool y m'); cbn [negb length]; lia. }
  destruct H as (-> & ->). tauto.
Qed.
Lemma F2_length {A} (R : A -> A -> Prop) l l' : Forall2 R l l' -> length l = length l'.
Proof. induction 1; cbn; congruence. Qed.
Lemma F2_sym l l' : Forall2 Qeq l l' -> Forall2 Qeq l' l.
Proof. induction 1; constructor; [symmetry|]; assumption. Qed.

Lemma div2_lt n : n <> 0 -> n / 2 < n /\ (n - 1) / 2 < n.
Proof. intros H. split; apply Nat.div_lt_upper_bound; lia. Qed.

Lemma low_ok l l' : l <> [] -> Forall2 Qeq l l' -> low_median l' (median_low l).
Proof.
  intros Hne F. unfold low_median, median_low. rewrite <- (F2_length _ _ _ F).
  apply (place_eq _ l l' (nth ((length l - 1) / 2) (sort l) 0%Q) _ F); [reflexivity|].
  apply place_sorted. apply div2_lt. destruct l; [congruence|discriminate].
Qed.
Lemma high_ok l l' : l <> [] -> Forall2 Qeq l l' -> high_median l' (median_high l).
Proof.
  intros Hne F. unfold high_median, median_high. rewrite <- (F2_length _ _ _ F).
  apply (place_eq _ l l' (nth (length l / 2) (sort l) 0%Q) _ F); [reflexivity|].
  apply place_sorted. apply div2_lt. destruct l; [congruence|discriminate].
Qed.
Lemma mid_ok l l' : l <> [] -> Forall2 Qeq l l' -> mid_median l' (median l).
Proof.
  intros Hne F. pose proof (low_ok l l' Hne F) as Hl. pose proof (high_ok l l' Hne F) as Hh.
  exists (median_low l), (median_high l). split; [exact Hl|]. split; [exact Hh|].
  unfold median, median_low, median_high. destruct (Nat.odd (length l)) eqn:Eo.
  - apply Nat.odd_spec in Eo. destruct Eo as (k & Ek).
    replace ((length l - 1) / 2) with (length l / 2).
    + field.
    + rewrite Ek. replace (2 * k + 1 - 1) with (k * 2) by lia. rewrite Nat.div_mul by lia.
      symmetry. apply (Nat.div_unique (2 * k + 1) 2 k 1); lia.
  - assert (Ee : Nat.even (length l) = true) by (rewrite <- Nat.negb_odd, Eo; reflexivity). apply Nat.even_spec in Ee. destruct Ee as (k & Ek).
    assert (k <> 0) by (intros ->; destruct l; [congruence|cbn in Ek; lia]).
    replace ((length l - 1) / 2) with (length l / 2 - 1); [reflexivity|].
    rewrite Ek. rewrite (Nat.mul_comm 2 k), Nat.div_mul by lia. apply (Nat.div_unique (k * 2 - 1) 2 (k - 1) 1); lia.
Qed.
Lemma mid_unique l m m' : mid_median l m -> mid_median l m' -> (m == m')%Q.
Proof.
  intros (a & b & A & B & ->) (a' & b' & A' & B' & ->). rewrite (place_unique _ _ _ _ A A'), (place_unique _ _ _ _ B B'). reflexivity.
Qed.
Lemma place_pos j l m : (forall x, In x l -> (0 <= x)%Q) -> at_place j l m -> (0 <= m)%Q.
Proof. intros H P. destruct (place_in j l m P) as (x & Hx & <-). exact (H x Hx). Qed.
Lemma mid_pos l m : (forall x, In x l -> (0 <= x)%Q) -> mid_median l m -> (0 <= m)%Q.
Proof.
  intros H (a & b & A & B & ->). pose proof (place_pos _ _ _ H A). pose proof (place_pos _ _ _ H B).
  unfold Qdiv. change (/ 2)%Q with (1 # 2)%Q. lra.
Qed.

(** ** Verdicts *)
(** everything but the measures of throughput *)
Definition rest (m m' : mon) : Prop := m_num m' = m_num m /\ m_last m' = m_last m /\ m_lat m' = m_lat m /\ m_ids m' = m_ids m /\ m_track m' = m_track m.
Lemma rest_refl m : rest m m.
Proof. repeat split. Qed.
Lemma rest_trans a b c : rest a b -> rest b c -> rest a c.
Proof. unfold rest. intuition congruence. Qed.

Lemma get_tput_spec c h now i t m : good c -> minv c h now m -> now <= t -> In i (ids h) ->
  exists v m', get_tput c i t m = Some (v, m') /\ minv c h t m' /\ rest m m' /\ oeq v (speed c h t i) /\ (forall q, v = Some q -> (0 <= q)%Q).
Proof.
  intros Hg H L Hi. unfold get_tput.
  assert (Hb : existsb (Nat.eqb i) (m_ids m) = true) by (apply mem_in; rewrite (i_ids _ _ _ _ H); exact Hi). rewrite Hb.
  destruct (get_some i (m_tput m)) as (th & Et); [rewrite (i_tkeys _ _ _ _ H); exact Hi|]. rewrite Et.
  destruct (tput_get c (base h) (times h i) now th t Hg (i_tput _ _ _ _ H i th Et) L) as (v & th' & -> & Ho & Hv & Hp).
  eexists. eexists. split; [reflexivity|]. split; [|split; [repeat split|split; [exact Hv|exact Hp]]].
  - constructor; cbn [m_ids m_tput m_lat m_track].
    + apply H.
    + rewrite set_keys_eq; [apply H|]. rewrite (i_tkeys _ _ _ _ H). exact Hi.
    + apply H.
    + intros j th0 E. rewrite get_set in E. destruct (Nat.eqb_spec j i) as [->|].
      * injection E as <-. exact Ho.
      * exact (tput_later _ _ _ _ _ _ (i_tput _ _ _ _ H j th0 E) L).
    + apply H.
    + exact (tinv_later _ _ _ _ _ (i_track _ _ _ _ H) L).
Qed.

Lemma get_others_spec c h i t : good c -> forall l now m, minv c h now m -> now <= t -> incl l (ids h) ->
  exists vs m', get_others c i t l m = Some (vs, m') /\ minv c h (if existsb (fun j => negb (j =? i)) l then t else now) m' /\ rest m m' /\
    Forall2 Qeq vs (present (map (speed c h t) (filter (fun j => negb (j =? i)) l))) /\ (forall q, In q vs -> (0 <= q)%Q).
Proof.
  intros Hg. induction l as [|j l IH]; intros now m H L Hl; cbn [get_others].
  - exists [], m. split; [reflexivity|]. split; [exact H|]. split; [apply rest_refl|]. split; [constructor|intros q []].
  - assert (Hl' : incl l (ids h)) by (intros x Hx; apply Hl; right; exact Hx). cbn [existsb filter].
    destruct (j =? i); cbn [negb orb].
    + exact (IH now m H L Hl').
    + destruct (get_tput_spec c h now j t m Hg H L) as (v & m1 & -> & H1 & R1 & Hv & Hp); [apply Hl; left; reflexivity|].
      destruct (IH t m1 H1 (le_n t) Hl') as (vs & m2 & -> & H2 & R2 & Hvs & Hps).
      eexists. exists m2. split; [reflexivity|]. split; [destruct (existsb _ l); exact H2|]. split; [exact (rest_trans _ _ _ R1 R2)|].
      cbn [map]. unfold present in *. cbn [flat_map]. unfold oeq in Hv.
      destruct v as [q|], (speed c h t j) as [q'|]; try contradiction.
      * split; [constructor; assumption|]. intros x [<-|Hx]; [exact (Hp q eq_refl)|exact (Hps x Hx)].
      * split; assumption.
Qed.

Lemma filter_fst {V} (f : nat -> bool) (d : dict V) : map fst (filter (fun x => f (fst x)) d) = filter f (map fst d).
Proof. induction d as [|[k v] d IH]; cbn; [reflexivity|]. destruct (f k); cbn; [f_equal|]; exact IH. Qed.
Lemma num_sum h m f : ninv h m ->
  fold_right Nat.add 0 (map (fun x => fst (snd x)) (filter (fun x => f (fst x)) (m_num m))) =
  fold_right Nat.add 0 (map (number h) (filter f (ids h))).
Proof.
  intros H. rewrite <- (i_nkeys _ _ H), <- (filter_fst f), map_map. f_equal. apply map_ext_in.
  intros [i [n d]] Hx. apply filter_In in Hx. cbn [fst snd]. apply (i_num _ _ H i n d). apply in_get; [|tauto].
  rewrite (i_nkeys _ _ H). apply ids_nodup.
Qed.
Lemma others_num_spec h i m : ninv h m -> others_num i m = fold_right Nat.add 0 (map (number h) (filter (fun j => negb (j =? i)) (ids h))).
Proof. intros H. unfold others_num. exact (num_sum h m (fun j => negb (j =? i)) H). Qed.
Lemma sum_num_spec h m : ninv h m -> sum_num m = total h.
Proof.
  intros H. unfold sum_num, total. pose proof (num_sum h m (fun _ => true) H) as E.
  rewrite !filter_all in E by reflexivity. exact E.
Qed.

Lemma ninv_rest h m m' : rest m m' -> ninv h m -> ninv h m'.
Proof. intros (E & _) H. constructor; rewrite E; apply H. Qed.

Lemma no_others (l : list nat) i : NoDup l -> In i l -> length l <= 1 -> filter (fun j => negb (j =? i)) l = [].
Proof.
  intros N Hi Hl. destruct l as [|a [|b l]]; cbn in *; [reflexivity| |lia]. destruct Hi as [->|[]]. rewrite Nat.eqb_refl. reflexivity.
Qed.

(** the median of the others *)
Definition avg_ok (h : list event) (i : nat) (v : nat -> option Q) (o : option Q) : Prop :=
  match o with
  | None => others h i v = []
  | Some m => others h i v <> [] /\ (if i =? 0 then low_median (others h i v) m else mid_median (others h i v) m) /\ (0 <= m)%Q
  end.

Lemma get_throughputs_spec c h now i t m : good c -> minv c h now m -> ninv h m -> now <= t -> In i (ids h) ->
  exists v o m', get_throughputs c i t m = Some (v, o, m') /\ minv c h t m' /\ rest m m' /\ avg_ok h i (speed c h t) o /\
    (match v with
     | None => forall q, speed c h t i = Some q -> (q == 0)%Q /\ early h i
     | Some q => (exists q', speed c h t i = Some q' /\ (q == q')%Q) /\ ~ ((q == 0)%Q /\ early h i)
     end).
Proof.
  intros Hg H Hn L Hi. unfold get_throughputs.
  destruct (get_tput_spec c h now i t m Hg H L Hi) as (v & m1 & -> & H1 & R1 & Hv & Hp).
  assert (Ho : exists o m2, (if 1 <? length (m_tput m1) then
      match get_others c i t (map fst (m_tput m1)) m1 with
      | None => None
      | Some ([], m) => Some (None, m)
      | Some (vs, m) => Some (Some (if i =? 0 then median_low vs else median vs), m)
      end else Some (None, m1)) = Some (o, m2) /\ minv c h t m2 /\ rest m1 m2 /\ avg_ok h i (speed c h t) o).
  { destruct (1 <? length (m_tput m1)) eqn:El.
    - rewrite (i_tkeys _ _ _ _ H1).
      destruct (get_others_spec c h i t Hg (ids h) t m1 H1 (le_n t) (incl_refl _)) as (vs & m2 & -> & H2 & R2 & Hvs & Hps).
      assert (H2' : minv c h t m2) by (destruct (existsb _ (ids h)); exact H2).
      fold (others h i (speed c h t)) in Hvs.
      assert (Hpo : forall x, In x (others h i (speed c h t)) -> (0 <= x)%Q).
      { clear -Hvs Hps. induction Hvs as [|a b l l' E F IH]; [intros x []|]. intros x [<-|Hx]; [rewrite <- E; apply Hps; left; reflexivity|].
        apply IH; [|exact Hx]. intros q Hq. apply Hps. right. exact Hq. }
      destruct vs as [|q vs].
      + exists None, m2. split; [reflexivity|]. split; [exact H2'|]. split; [exact R2|]. inversion Hvs. symmetry. assumption.
      + eexists. exists m2. split; [reflexivity|]. split; [exact H2'|]. split; [exact R2|]. unfold avg_ok.
        assert (Hne : q :: vs <> []) by discriminate. revert Hvs Hne Hps. generalize (q :: vs) as l. intros l Hvs Hne Hps.
        split; [intros E; rewrite E in Hvs; inversion Hvs; congruence|].
        destruct (i =? 0).
        * pose proof (low_ok l _ Hne Hvs) as Hm. split; [exact Hm|]. exact (place_pos _ _ _ Hpo Hm).
        * pose proof (mid_ok l _ Hne Hvs) as Hm. split; [exact Hm|]. exact (mid_pos _ _ Hpo Hm).
    - exists None, m1. split; [reflexivity|]. split; [exact H1|]. split; [apply rest_refl|]. apply Nat.ltb_ge in El.
      unfold avg_ok, others. rewrite no_others; [reflexivity|apply ids_nodup|exact Hi|].
      rewrite <- (i_tkeys _ _ _ _ H1), map_length. exact El. }
  destruct Ho as (o & m2 & -> & H2 & R2 & Ho). pose proof (rest_trans _ _ _ R1 R2) as R.
  pose proof (ninv_rest h m m2 R Hn) as Hn2.
  destruct v as [q|].
  - unfold oeq in Hv. destruct (speed c h t i) as [q'|] eqn:Es; [|contradiction]. rewrite is_zero_eq.
    destruct (Qeq_bool q 0) eqn:Eq.
    + apply Qeq_bool_iff in Eq. destruct (get_some i (m_num m2)) as ([n d] & En); [rewrite (i_nkeys _ _ Hn2); exact Hi|]. rewrite En.
      destruct (i_num _ _ Hn2 i n d En) as (En1 & End).
      assert (Hearly : early h i <-> n = 0 /\ others_num i m2 <= length (m_ids m2)).
      { unfold early. rewrite (others_num_spec h i m2 Hn2), (i_ids _ _ _ _ H2), En1. tauto. }
      destruct n as [|n].
      * rewrite (End eq_refl). destruct (others_num i m2 <=? length (m_ids m2)) eqn:Eo.
        -- apply Nat.leb_le in Eo. exists None, o, m2. split; [reflexivity|]. split; [exact H2|]. split; [exact R|]. split; [exact Ho|].
           intros x Ex. injection Ex as <-. split; [rewrite <- Hv; exact Eq|]. apply Hearly. auto.
        -- apply Nat.leb_gt in Eo. exists (Some q), o, m2. split; [reflexivity|]. split; [exact H2|]. split; [exact R|]. split; [exact Ho|].
           split; [eauto|]. intros (_ & He). apply Hearly in He. lia.
      * exists (Some q), o, m2. split; [reflexivity|]. split; [exact H2|]. split; [exact R|]. split; [exact Ho|].
        split; [eauto|]. intros (_ & He). apply Hearly in He. lia.
    + exists (Some q), o, m2. split; [reflexivity|]. split; [exact H2|]. split; [exact R|]. split; [exact Ho|].
      split; [eauto|]. intros (Hz & _). apply Qeq_bool_iff in Hz. congruence.
  - exists None, o, m2. split; [reflexivity|]. split; [exact H2|]. split; [exact R|]. split; [exact Ho|].
    intros q Eq. unfold oeq in Hv. rewrite Eq in Hv. contradiction.
Qed.

Lemma ratio_lt d v o : (0 < o)%Q -> (negb (Qle_bool d (v / o)) = true <-> (v < d * o)%Q).
Proof.
  intros Ho. rewrite negb_true_iff. split.
  - intros H. destruct (Qlt_le_dec v (d * o)) as [Hl|Hl]; [exact Hl|]. exfalso.
    assert (Hx : (d <= v / o)%Q) by (apply Qle_shift_div_l; assumption). apply Qle_bool_iff in Hx. congruence.
  - intros H. destruct (Qle_bool d (v / o)) eqn:E; [|reflexivity]. exfalso. apply Qle_bool_iff in E.
    apply (Qlt_not_le _ _ H). setoid_replace v with ((v / o) * o)%Q.
    + apply Qmult_le_compat_r; [exact E|apply Qlt_le_weak; exact Ho].
    + field. intros Hz. rewrite Hz in Ho. exact (Qlt_irrefl 0 Ho).
Qed.

Lemma too_slow_spec c h now i t m : good c -> minv c h now m -> ninv h m -> now <= t -> In i (ids h) ->
  exists b m', too_slow c i t m = Some (b, m') /\ minv c h t m' /\ rest m m' /\ (b = true <-> slow c h i (speed c h t)).
Proof.
  intros Hg H Hn L Hi. unfold too_slow.
  destruct (get_throughputs_spec c h now i t m Hg H Hn L Hi) as (v & o & m' & -> & H' & R & Ho & Hv).
  unfold slow. destruct v as [q|]; [destruct o as [a|]|].
  - destruct Hv as ((q' & Es & Eq) & He). destruct Ho as (Hne & Hm & Hp).
    eexists. exists m'. split; [reflexivity|]. split; [exact H'|]. split; [exact R|]. rewrite is_zero_eq.
    assert (Hu : forall m0, (if i =? 0 then low_median (others h i (speed c h t)) m0 else mid_median (others h i (speed c h t)) m0) -> (m0 == a)%Q).
    { intros m0 H0. destruct (i =? 0); [exact (place_unique _ _ _ _ H0 Hm)|exact (mid_unique _ _ _ H0 Hm)]. }
    destruct (Qeq_bool a 0) eqn:Ea.
    + apply Qeq_bool_iff in Ea. split; [discriminate|]. intros (q0 & m0 & _ & _ & _ & Hm0 & Hpos & _).
      rewrite (Hu m0 Hm0), Ea in Hpos. destruct (Qlt_irrefl 0 Hpos).
    + assert (Hpos : (0 < a)%Q).
      { apply Qle_lteq in Hp. destruct Hp as [Hp|Hp]; [exact Hp|]. symmetry in Hp. apply Qeq_bool_iff in Hp. congruence. }
      rewrite (ratio_lt (delta c) q a Hpos). split.
      * intros Hlt. exists q', a. split; [exact Es|]. split; [rewrite <- Eq; exact He|]. split; [exact Hne|]. split; [exact Hm|].
        split; [exact Hpos|]. rewrite <- Eq. exact Hlt.
      * intros (q0 & m0 & E0 & _ & _ & Hm0 & _ & Hlt). rewrite Es in E0. injection E0 as <-. rewrite <- (Hu m0 Hm0), Eq. exact Hlt.
  - exists false, m'. split; [reflexivity|]. split; [exact H'|]. split; [exact R|]. split; [discriminate|].
    intros (q0 & m0 & _ & _ & Hne & _). cbn in Ho. congruence.
  - exists false, m'. split; [destruct o; reflexivity|]. split; [exact H'|]. split; [exact R|]. split; [discriminate|].
    intros (q0 & m0 & E0 & He & _). exfalso. apply He. exact (Hv q0 E0).
Qed.

(** latency *)
Lemma get_latency_spec c h now i m : minv c h now m -> In i (ids h) -> get_latency c i m = Some (delay c h i).
Proof.
  intros H Hi. unfold get_latency. destruct (get_some i (m_lat m)) as (l & El); [rewrite (i_lkeys _ _ _ _ H); exact Hi|].
  destruct (m_lat m) as [|x y] eqn:Em; [discriminate|]. rewrite El. f_equal. rewrite <- Em in El.
  destruct (i_lat _ _ _ _ H i l El) as (E1 & E2). unfold avg_latency, delay. rewrite E1, E2. reflexivity.
Qed.
Lemma truthy_nonzero v i : truthy (v i) = nonzero v i.
Proof. unfold truthy, nonzero. destruct (v i) as [q|]; [rewrite is_zero_eq|]; reflexivity. Qed.
Lemma other_latencies_spec c h now i m : minv c h now m -> forall l, incl l (ids h) ->
  other_latencies c i l m = Some (present (map (nonzero (delay c h)) (filter (fun j => negb (j =? i)) l))).
Proof.
  intros H. induction l as [|j l IH]; intros Hl; cbn [other_latencies]; [reflexivity|].
  rewrite IH by (intros x Hx; apply Hl; right; exact Hx). cbn [filter]. rewrite (Nat.eqb_sym i j).
  destruct (j =? i); cbn [negb]; [reflexivity|]. rewrite (get_latency_spec c h now j m H) by (apply Hl; left; reflexivity).
  rewrite truthy_nonzero. cbn [map]. unfold present. cbn [flat_map]. destruct (nonzero (delay c h) j); reflexivity.
Qed.
Lemma present_nonzero v l x : In x (present (map (nonzero v) l)) -> ~ (x == 0)%Q.
Proof.
  intros H. unfold present in H. apply in_flat_map in H. destruct H as (o & Ho & Hx). apply in_map_iff in Ho. destruct Ho as (j & <- & _).
  unfold nonzero in Hx. destruct (v j) as [q|]; [|destruct Hx]. destruct (Qeq_bool q 0) eqn:E; [destruct Hx|].
  destruct Hx as [<-|[]]. intros Hz. apply Qeq_bool_iff in Hz. congruence.
Qed.
Lemma F2_refl l : Forall2 Qeq l l.
Proof. induction l; constructor; [reflexivity|assumption]. Qed.

Lemma too_late_spec c h now m : minv c h now m -> exists b, too_late c m = Some b /\ (b = true <-> late c h (delay c h)).
Proof.
  intros H. pose proof (v_zero _ _ _ _ (i_track _ _ _ _ H)) as H0. unfold too_late.
  rewrite (get_latency_spec c h now 0 m H H0), (i_ids _ _ _ _ H), (other_latencies_spec c h now 0 m H (ids h) (incl_refl _)).
  fold (others h 0 (nonzero (delay c h))). unfold late. rewrite truthy_nonzero.
  destruct (others h 0 (nonzero (delay c h))) as [|x l] eqn:Eo.
  - exists false. split; [reflexivity|]. split; [discriminate|]. intros (q & m0 & _ & _ & Hne & _). congruence.
  - rewrite <- Eo. assert (Hne : others h 0 (nonzero (delay c h)) <> []) by (rewrite Eo; discriminate). clear x l Eo.
    set (vs := others h 0 (nonzero (delay c h))) in *.
    pose proof (high_ok vs vs Hne (F2_refl vs)) as Hm.
    assert (Hz : ~ (median_high vs == 0)%Q).
    { destruct (place_in _ _ _ Hm) as (x & Hx & E). rewrite <- E. exact (present_nonzero _ _ x Hx). }
    unfold truthy. rewrite is_zero_eq. destruct (Qeq_bool (median_high vs) 0) eqn:Ez; [apply Qeq_bool_iff in Ez; tauto|].
    unfold nonzero. destruct (delay c h 0) as [q|] eqn:Ed.
    + destruct (Qeq_bool q 0) eqn:Eq.
      * exists false. split; [reflexivity|]. split; [discriminate|]. intros (q0 & m0 & E0 & Hq & _). injection E0 as <-.
        apply Qeq_bool_iff in Eq. tauto.
      * eexists. split; [reflexivity|]. rewrite Qle_bool_iff. split.
        -- intros Hle. exists q, (median_high vs). split; [reflexivity|]. split; [intros Hq; apply Qeq_bool_iff in Hq; congruence|].
           split; [exact Hne|]. split; [exact Hm|exact Hle].
        -- intros (q0 & m0 & E0 & _ & _ & Hm0 & Hle). injection E0 as <-. rewrite <- (place_unique _ _ _ _ Hm0 Hm). exact Hle.
    + exists false. split; [reflexivity|]. split; [discriminate|]. intros (q0 & m0 & E0 & _). discriminate.
Qed.

Lemma master_spec c h now t m : good c -> minv c h now m -> ninv h m -> now <= t ->
  exists b m', master_degraded c t m = Some (b, m') /\ minv c h t m' /\ rest m m' /\
    (b = true <-> slow c h 0 (speed c h t) \/ late c h (delay c h)).
Proof.
  intros Hg H Hn L. pose proof (v_zero _ _ _ _ (i_track _ _ _ _ H)) as H0. unfold master_degraded. rewrite (i_ids _ _ _ _ H).
  pose proof H0 as Hb. apply mem_in in Hb. rewrite Hb.
  destruct (too_slow_spec c h now 0 t m Hg H Hn L H0) as (b & m' & -> & H' & R & Hs).
  destruct b.
  - exists true, m'. split; [reflexivity|]. split; [exact H'|]. split; [exact R|]. tauto.
  - destruct (too_late_spec c h t m' H') as (b & -> & Hl). exists b, m'. split; [reflexivity|]. split; [exact H'|]. split; [exact R|].
    rewrite Hl. split; [auto|]. intros [Hx|Hx]; [apply Hs in Hx; discriminate|exact Hx].
Qed.

Lemma slow_among_spec c h t : good c -> forall l now m, minv c h now m -> ninv h m -> now <= t -> incl l (ids h) ->
  exists r m', slow_among c t l m = Some (r, m') /\ minv c h t m' /\ rest m m' /\
    (forall i, In i r <-> In i l /\ i <> 0 /\ slow c h i (speed c h t)).
Proof.
  intros Hg. induction l as [|j l IH]; intros now m H Hn L Hl; cbn [slow_among].
  - exists [], m. split; [reflexivity|]. split; [exact (minv_later _ _ _ _ _ H L)|]. split; [apply rest_refl|]. intros i. cbn. tauto.
  - assert (Hl' : incl l (ids h)) by (intros x Hx; apply Hl; right; exact Hx).
    destruct (Nat.eqb_spec j 0) as [->|N].
    + destruct (IH now m H Hn L Hl') as (r & m' & E & H' & R & Hr). exists r, m'. split; [exact E|]. split; [exact H'|]. split; [exact R|].
      intros i. rewrite Hr. cbn [In]. intuition congruence.
    + destruct (too_slow_spec c h now j t m Hg H Hn L) as (b & m1 & -> & H1 & R1 & Hs); [apply Hl; left; reflexivity|].
      destruct (IH t m1 H1 (ninv_rest h m m1 R1 Hn) (le_n t) Hl') as (r & m2 & -> & H2 & R2 & Hr).
      eexists. exists m2. split; [reflexivity|]. split; [exact H2|]. split; [exact (rest_trans _ _ _ R1 R2)|].
      intros i. cbn [In]. destruct b; cbn [In]; rewrite Hr.
      * split; [intros [<-|Hx]; [|tauto]; split; [auto|]; split; [exact N|apply Hs; reflexivity]|].
        intros ([<-|Hx] & Hi); [auto|tauto].
      * split; [tauto|]. intros ([<-|Hx] & Hi & Hsl); [|tauto]. apply Hs in Hsl. discriminate.
Qed.

Lemma minv_last c h now m x : minv c h now m -> minv c h now (Mon (m_ids m) (m_num m) (m_tput m) (m_lat m) (m_track m) x).
Proof. intros H. constructor; apply H. Qed.
Lemma ninv_last h m x : ninv h m -> ninv h (Mon (m_ids m) (m_num m) (m_tput m) (m_lat m) (m_track m) x).
Proof. intros H. constructor; apply H. Qed.

Lemma perf_spec c h now t m : good c -> minv c h now m -> ninv h m -> now <= t -> m_last m = last_total h ->
  exists r m', check_performance c t m = Some (r, m') /\ minv c h t m' /\ ninv h m' /\ m_last m' = Some (total h) /\
    match r with
    | None => last_total h = Some (total h)
    | Some (l, b) => last_total h <> Some (total h) /\
        (forall i, In i l <-> In i (ids h) /\ i <> 0 /\ slow c h i (speed c h t)) /\
        (b = true <-> slow c h 0 (speed c h t) \/ late c h (delay c h))
    end.
Proof.
  intros Hg H Hn L El. unfold check_performance. rewrite El, (sum_num_spec h m Hn).
  pose proof (v_zero _ _ _ _ (i_track _ _ _ _ H)) as H0.
  assert (Hcase : (match last_total h with Some n => total h =? n | None => false end = true) <-> last_total h = Some (total h)).
  { destruct (last_total h) as [n|]; [rewrite Nat.eqb_eq; split; congruence|split; discriminate]. }
  destruct (match last_total h with Some n => total h =? n | None => false end).
  - exists None, m. split; [reflexivity|]. split; [exact (minv_later _ _ _ _ _ H L)|]. split; [exact Hn|].
    assert (E : last_total h = Some (total h)) by (apply Hcase; reflexivity). split; [congruence|exact E].
  - set (m0 := Mon (m_ids m) (m_num m) (m_tput m) (m_lat m) (m_track m) (Some (total h))).
    assert (Hm0 : minv c h now m0) by (apply minv_last; exact H). assert (Hn0 : ninv h m0) by (apply ninv_last; exact Hn).
    rewrite (i_ids _ _ _ _ Hm0). pose proof H0 as Hb. apply mem_in in Hb. rewrite Hb.
    destruct (get_throughputs_spec c h now 0 t m0 Hg Hm0 Hn0 L H0) as (v & o & m1 & -> & H1 & R1 & _).
    pose proof (ninv_rest h m0 m1 R1 Hn0) as Hn1.
    unfold backups_degraded. rewrite (i_ids _ _ _ _ H1).
    destruct (slow_among_spec c h t Hg (ids h) t m1 H1 Hn1 (le_n t) (incl_refl _)) as (r & m2 & -> & H2 & R2 & Hr).
    pose proof (ninv_rest h m1 m2 R2 Hn1) as Hn2.
    destruct (master_spec c h t t m2 Hg H2 Hn2 (le_n t)) as (b & m3 & -> & H3 & R3 & Hbb).
    exists (Some (r, b)), m3. split; [reflexivity|]. split; [exact H3|]. split; [exact (ninv_rest h m2 m3 R3 Hn2)|].
    split; [destruct R1 as (_ & E1 & _), R2 as (_ & E2 & _), R3 as (_ & E3 & _); rewrite E3, E2, E1; reflexivity|].
    split; [intros E; apply Hcase in E; discriminate|]. split; assumption.
Qed.

(** ** Histories *)
Lemma run_snoc c es e : forall m, run c m (es ++ [e]) = match run c m es with None => None | Some m => step c m e end.
Proof.
  induction es as [|x es IH]; intros m; cbn.
  - destruct (step c m e); reflexivity.
  - destruct (step c m x); [apply IH|reflexivity].
Qed.

Definition inv (c : config) (h : list event) (now : nat) (m : mon) : Prop := minv c h now m /\ ninv h m /\ m_last m = last_total h.
Lemma inv_later c h now now' m : inv c h now m -> now <= now' -> inv c h now' m.
Proof. intros (H1 & H2 & H3) L. split; [exact (minv_later _ _ _ _ _ H1 L)|split; assumption]. Qed.

Lemma step_inv c h now m e now' : good c -> inv c h now m -> now <= now' -> (forall t, In t (time_of e) -> now <= t <= now') ->
  e <> ERemove 0 -> exists m', step c m e = Some m' /\ inv c (e :: h) now' m'.
Proof.
  intros Hg (H & Hn & El) Hnow Ht Hr. pose proof (v_zero _ _ _ _ (i_track _ _ _ _ H)) as H0.
  destruct e as [i t|i|t|k t|i ks t kn|k|t|t]; cbn [step time_of] in *;
    try (assert (L : now <= t <= now') by (apply Ht; left; reflexivity); destruct L as (L & L')).
  - eexists. split; [reflexivity|]. apply (inv_later c _ t now'); [|exact L'].
    assert (Hk : forall j, add j (ids h) = ids (EAdd j t :: h)) by reflexivity.
    destruct (minv_reset c t (add_instance i t m) (EAdd i t :: h)) as (A & B); try reflexivity.
    + cbn [add_instance m_ids ids]. rewrite (i_ids _ _ _ _ H). reflexivity.
    + cbn [add_instance m_tput ids]. rewrite set_keys_add, (i_tkeys _ _ _ _ H). reflexivity.
    + cbn [add_instance m_lat ids]. rewrite set_keys_add, (i_lkeys _ _ _ _ H). reflexivity.
    + cbn [add_instance m_track tr_add t_ids ids]. rewrite (v_ids _ _ _ _ (i_track _ _ _ _ H)). reflexivity.
    + cbn [ids]. apply add_in. right. exact H0.
    + split; [exact A|]. split; [exact B|exact El].
  - rewrite (i_ids _ _ _ _ H). destruct (existsb (Nat.eqb i) (ids h)) eqn:Ei.
    + apply mem_in in Ei. unfold remove_instance. rewrite (i_ids _ _ _ _ H).
      destruct (tinv_remove c h now i (m_track m) (i_track _ _ _ _ H) Ei) as (x & -> & Hx); [congruence|].
      destruct (ids h) as [|a y] eqn:Eids; [destruct H0|]. rewrite <- Eids in *.
      eexists. split; [reflexivity|]. apply (inv_later c _ now now'); [|exact Hnow]. split; [|split; [|exact El]].
      * constructor; cbn [m_ids m_tput m_lat m_track ids base times durations].
        -- reflexivity.
        -- rewrite del_keys, (i_tkeys _ _ _ _ H). reflexivity.
        -- rewrite del_keys, (i_lkeys _ _ _ _ H). reflexivity.
        -- intros j th E. rewrite get_del in E. destruct (j =? i); [discriminate|]. apply H. exact E.
        -- intros j l E. rewrite get_del in E. destruct (j =? i); [discriminate|]. apply H. exact E.
        -- exact Hx.
      * constructor; cbn [m_num ids number].
        -- rewrite del_keys, (i_nkeys _ _ Hn). reflexivity.
        -- intros j n d E. rewrite get_del in E. destruct (j =? i); [discriminate|]. apply Hn. exact E.
    + assert (Hni : ~ In i (ids h)) by (intros Hx; apply mem_in in Hx; congruence).
      exists m. split; [reflexivity|]. apply (inv_later c _ now now'); [|exact Hnow]. split; [|split; [|exact El]].
      * apply (minv_same c h now m _ H); try reflexivity.
        -- cbn [ids]. apply discard_not. exact Hni.
        -- intros k. cbn [waiting]. destruct (waiting h k) as [[t l]|] eqn:Ew; [|reflexivity].
           destruct (waiting_facts h k t l Ew) as (Hne & Hi & _). apply less_some. exists l. split; [reflexivity|].
           split; [symmetry; apply discard_not; intros Hx; apply Hni; apply Hi; exact Hx|exact Hne].
      * constructor; cbn [ids number]; [rewrite discard_not by exact Hni|]; apply Hn.
  - eexists. split; [reflexivity|]. apply (inv_later c _ t now'); [|exact L'].
    destruct (minv_reset c t m (EReset t :: h)) as (A & B); try reflexivity; try apply H.
    split; [exact A|]. split; [exact B|exact El].
  - eexists. split; [reflexivity|]. apply (inv_later c _ t now'); [|exact L']. split; [|split; [|exact El]].
    + constructor; cbn [request_unordered m_ids m_tput m_lat m_track ids base times durations]; try apply H.
      * intros i th E. exact (tput_later _ _ _ _ _ _ (i_tput _ _ _ _ H i th E) L).
      * exact (tinv_start c h now k t (m_track m) (i_track _ _ _ _ H) L).
    + constructor; cbn [request_unordered m_num ids number]; apply Hn.
  - rewrite (i_ids _ _ _ _ H). destruct (existsb (Nat.eqb i) (ids h)) eqn:Ei.
    + apply mem_in in Ei. destruct (request_ordered_spec c h now i ks t kn m Hg H Hn L Ei) as (m' & E & A & B & C).
      exists m'. split; [exact E|]. apply (inv_later c _ t now'); [|exact L']. split; [exact A|]. split; [exact B|]. cbn [last_total]. congruence.
    + assert (Hni : ~ In i (ids h)) by (intros Hx; apply mem_in in Hx; congruence).
      assert (Hh : has i h = false) by exact Ei.
      exists m. split; [reflexivity|]. apply (inv_later c _ now now'); [|exact Hnow]. split; [|split; [|exact El]].
      * apply (minv_same c h now m _ H); try reflexivity.
        -- intros k. cbn [waiting]. destruct (existsb (Nat.eqb k) ks); [|reflexivity].
           destruct (waiting h k) as [[tk l]|] eqn:Ew; [|reflexivity].
           destruct (waiting_facts h k tk l Ew) as (Hne & Hi & _). apply less_some. exists l. split; [reflexivity|].
           split; [symmetry; apply discard_not; intros Hx; apply Hni; apply Hi; exact Hx|exact Hne].
        -- intros j. cbn [times]. rewrite Hh, andb_false_r. reflexivity.
        -- intros j. cbn [durations]. rewrite Hh, andb_false_r. reflexivity.
      * constructor; cbn [ids number]; [apply Hn|]. intros j. rewrite Hh, andb_false_r. apply Hn.
  - eexists. split; [reflexivity|]. apply (inv_later c _ now now'); [|exact Hnow]. split; [|split; [|exact El]].
    + constructor; cbn [m_ids m_tput m_lat m_track ids base times durations]; try apply H.
      exact (tinv_drop c h now k (m_track m) (i_track _ _ _ _ H)).
    + constructor; cbn [m_num ids number]; apply Hn.
  - unfold check_unordered. destruct (tinv_check c h now t (m_track m) (i_track _ _ _ _ H) L) as (l & -> & _ & Hx).
    eexists. split; [reflexivity|]. apply (inv_later c _ t now'); [|exact L']. split; [|split; [|exact El]].
    + constructor; cbn [m_ids m_tput m_lat m_track ids base times durations]; try apply H.
      * intros i th E. exact (tput_later _ _ _ _ _ _ (i_tput _ _ _ _ H i th E) L).
      * exact Hx.
    + constructor; cbn [m_num ids number]; apply Hn.
  - destruct (perf_spec c h now t m Hg H Hn L El) as (r & m' & -> & A & B & C & _). exists m'. split; [reflexivity|].
    apply (inv_later c _ t now'); [|exact L']. split; [|split; [|exact C]].
    + apply (minv_same c h t m' _ A); reflexivity.
    + constructor; cbn [ids number]; apply B.
Qed.

Lemma wf_cons e h t : well_formed (e :: h) t -> h <> [] -> exists t', well_formed h t' /\ t' <= t /\ (forall s, In s (time_of e) -> t' <= s <= t) /\ e <> ERemove 0.
Proof.
  intros ((t0 & h' & E) & Hr & Hs) Hne. destruct h' as [|e0 h']; [cbn in E; injection E as _ ->; congruence|].
  cbn [app] in E. injection E as <- ->.
  assert (Hr' : e <> ERemove 0) by (intros ->; apply Hr; left; reflexivity).
  assert (Hrest : ~ In (ERemove 0) (h' ++ [EAdd 0 t0])) by (intros Hx; apply Hr; right; exact Hx).
  cbn [flat_map] in Hs. inversion Hs as [|? ? Hs1 Hs2]; subst. rewrite Forall_forall in Hs2.
  assert (Hsplit : time_of e = [] \/ exists s, time_of e = [s]) by (destruct e; cbn; eauto).
  destruct Hsplit as [E|(s & E)]; rewrite E in *; cbn [app] in *.
  - exists t. split; [|split; [lia|split; [intros s []|exact Hr']]]. split; [eauto|]. split; [exact Hrest|exact Hs].
  - exists s. split; [|split; [|split; [|exact Hr']]].
    + split; [eauto|]. split; [exact Hrest|exact Hs1].
    + apply Hs2. left. reflexivity.
    + intros s' [<-|[]]. split; [lia|]. apply Hs2. left. reflexivity.
Qed.

Lemma run_inv c : good c -> forall h t, well_formed h t -> exists m, run c empty (rev h) = Some m /\ inv c h t m.
Proof.
  intros Hg. induction h as [|e h IH]; intros t Hwf.
  - destruct Hwf as ((t0 & h' & E) & _). destruct h'; discriminate.
  - cbn [rev]. rewrite run_snoc. destruct h as [|e' h].
    + destruct Hwf as ((t0 & h' & E) & _ & Hs). destruct h' as [|x h']; [|destruct h'; discriminate]. cbn in E. injection E as ->.
      cbn [rev run]. eexists. split; [reflexivity|]. apply (inv_later c _ t0 t).
      2:{ inversion Hs as [|? ? _ Hf]; subst. inversion Hf; subst. lia. }
      destruct (minv_reset c t0 (add_instance 0 t0 empty) [EAdd 0 t0]) as (A & B); try reflexivity.
      * left. reflexivity.
      * split; [exact A|]. split; [exact B|reflexivity].
    + destruct (wf_cons e (e' :: h) t Hwf) as (t' & Hwf' & L & Ht & Hr); [discriminate|].
      destruct (IH t' Hwf') as (m & -> & Hi). exact (step_inv c (e' :: h) t' m e t Hg Hi L Ht Hr).
Qed.

(** what a check reports, on histories *)
Lemma reported_since c k tk older : In 0 (ids older) -> forall later, (forall e, In e later -> ~ ends k 0 e) ->
  (reported c (later ++ EReceived k tk :: older) k = false <-> forall t, In (ECheck t) later -> t - tk <= check_freq c).
Proof.
  intros H0. induction later as [|e later IH]; intros Hn; cbn [app].
  - cbn [reported]. rewrite Nat.eqb_refl. split; [intros _ t []|reflexivity].
  - assert (Hn' : forall e0, In e0 later -> ~ ends k 0 e0) by (intros e0 He0; apply Hn; right; exact He0). specialize (IH Hn').
    pose proof (Hn e (or_introl eq_refl)) as He.
    assert (Hskip : (forall t, e <> ECheck t) -> ((forall t, In (ECheck t) (e :: later) -> t - tk <= check_freq c) <-> (forall t, In (ECheck t) later -> t - tk <= check_freq c))).
    { intros Hd. split; intros Hx t Ht; [apply Hx; right; exact Ht|]. destruct Ht as [E|Ht]; [destruct (Hd t E)|exact (Hx t Ht)]. }
    destruct e; cbn [reported]; try (rewrite IH, Hskip by (intros; discriminate); tauto).
    + cbn [ends] in He. destruct (Nat.eqb_spec k0 k) as [->|]; [tauto|]. rewrite IH, Hskip by (intros; discriminate). tauto.
    + assert (Hw : waits (later ++ EReceived k tk :: older) k tk 0) by (exists later, older; auto).
      apply waiting_waits in Hw. destruct Hw as (l & -> & Hl). apply mem_in in Hl. rewrite Hl. cbn [andb].
      rewrite orb_false_iff, IH, Nat.ltb_ge. split.
      * intros (A & B) t0 [E|Ht]; [injection E as <-; exact B|exact (A t0 Ht)].
      * intros A. split; [intros t0 Ht; apply A; right; exact Ht|apply A; left; reflexivity].
Qed.
