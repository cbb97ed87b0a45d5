(** Proofs about the queue of actions. *)
From Coq Require Import List Arith Bool Lia.
Import ListNotations.
From Verif Require Import Aq_Model Aq_Spec.

Lemma key_eqb_eq x y : key_eqb x y = true <-> x = y.
Proof.
  destruct x, y; cbn; rewrite ?andb_true_iff, ?Nat.eqb_eq; split; try congruence; try (intros [[-> ->] ->]; reflexivity); try (intros ->; reflexivity).
  intros [= -> -> ->]. auto.
Qed.
Lemma key_eqb_refl x : key_eqb x x = true.
Proof. now apply key_eqb_eq. Qed.
Lemma key_eqb_spec x y : reflect (x = y) (key_eqb x y).
Proof. apply iff_reflect. symmetry. apply key_eqb_eq. Qed.
Lemma mem_in x l : mem x l = true <-> In x l.
Proof. unfold mem. rewrite existsb_exists. split; [intros (y & H & E); apply Nat.eqb_eq in E; now subst|intros H; exists x; now rewrite Nat.eqb_refl]. Qed.

(** * The dict *)
Lemma look_put k v m k' : look k' (put k v m) = if key_eqb k' k then Some v else look k' m.
Proof.
  induction m as [|[x w] m IH]; cbn [put look].
  - destruct (key_eqb k' k); reflexivity.
  - destruct (key_eqb_spec k x) as [-> |N]; cbn [look].
    + destruct (key_eqb_spec k' x); reflexivity.
    + rewrite IH. destruct (key_eqb_spec k' x) as [-> |]; [|reflexivity]. destruct (key_eqb_spec x k); [congruence|reflexivity].
Qed.
Lemma keys_put k v m : forall x, In x (map fst (put k v m)) <-> x = k \/ In x (map fst m).
Proof.
  intros x. induction m as [|[y w] m IH]; cbn [put map fst]; [cbn; intuition|].
  destruct (key_eqb_spec k y) as [-> |N]; cbn [map fst In]; [intuition|]. rewrite IH. intuition.
Qed.
Lemma put_nodup k v m : NoDup (map fst m) -> NoDup (map fst (put k v m)).
Proof.
  induction m as [|[y w] m IH]; cbn [put map fst]; intros H; [repeat constructor; intros []|].
  destruct (key_eqb_spec k y) as [-> |N]; cbn [map fst]; [exact H|]. inversion H; subst. constructor; [|now apply IH].
  rewrite keys_put. intros [E|E]; [congruence|contradiction].
Qed.
Lemma look_in k m l : look k m = Some l -> In k (map fst m).
Proof. induction m as [|[x w] m IH]; cbn; [discriminate|]. destruct (key_eqb_spec k x); [now left|]. intros H. right. auto. Qed.
Lemma look_none k m : look k m = None -> ~ In k (map fst m).
Proof. induction m as [|[x w] m IH]; cbn; [auto|]. destruct (key_eqb_spec k x); [discriminate|]. intros H [E|E]; [congruence|]. now apply IH. Qed.
Lemma drop_in i l x : NoDup l -> (In x (drop i l) <-> In x l /\ x <> i).
Proof.
  induction l as [|y l IH]; intros H; cbn [drop]; [cbn; tauto|]. inversion H; subst. destruct (Nat.eqb_spec i y) as [-> |N].
  - cbn. split; [intros Hx; split; [tauto|intros ->; contradiction]|]. intros [[-> |Hx] Hn]; [congruence|assumption].
  - cbn [In]. rewrite IH by assumption. intuition congruence.
Qed.
Lemma drop_nodup i l : NoDup l -> NoDup (drop i l).
Proof.
  induction l as [|y l IH]; intros H; cbn [drop]; [constructor|]. inversion H; subst. destruct (i =? y); [assumption|].
  constructor; [|now apply IH]. rewrite drop_in by assumption. tauto.
Qed.
Lemma drop_out i l : ~ In i l -> drop i l = l.
Proof.
  induction l as [|y l IH]; intros H; cbn [drop]; [reflexivity|]. destruct (Nat.eqb_spec i y) as [-> |]; [exfalso; apply H; now left|].
  f_equal. apply IH. intros Hx. apply H. now right.
Qed.
Lemma look_drop_id i m k : NoDup (map fst m) ->
  (forall k l k' l', look k m = Some l -> look k' m = Some l' -> In i l -> In i l' -> k = k') ->
  look k (drop_id i m) = option_map (drop i) (look k m).
Proof.
  induction m as [|[x w] m IH]; intros Hd Hu; [reflexivity|]. cbn [drop_id look]. inversion Hd as [|? ? Hx Hm]; subst.
  destruct (mem i w) eqn:M; cbn [look].
  - apply mem_in in M. destruct (key_eqb_spec k x) as [-> |N]; [reflexivity|]. destruct (look k m) as [l|] eqn:L; [|reflexivity]. cbn.
    rewrite drop_out; [reflexivity|]. intros Hi. apply N. apply (Hu k l x w); auto; cbn [look].
    + destruct (key_eqb_spec k x); [congruence|assumption].
    + now rewrite key_eqb_refl.
  - destruct (key_eqb_spec k x) as [-> |N].
    + cbn. rewrite drop_out; [reflexivity|]. intros Hi. apply mem_in in Hi. congruence.
    + apply IH; [assumption|]. intros k1 l1 k2 l2 H1 H2. apply Hu; cbn [look].
      * destruct (key_eqb_spec k1 x) as [-> |]; [apply look_in in H1; contradiction|assumption].
      * destruct (key_eqb_spec k2 x) as [-> |]; [apply look_in in H2; contradiction|assumption].
Qed.
Lemma keys_drop_id i m : map fst (drop_id i m) = map fst m.
Proof. induction m as [|[x w] m IH]; cbn; [reflexivity|]. destruct (mem i w); cbn; [reflexivity|]. now rewrite IH. Qed.

(** * Pending *)
Lemma pending_snoc tr e : pending (tr ++ [e]) =
  match e with
  | Asked i k d => pending tr ++ [(i, k, d)]
  | CancelledAll k => filter (fun x => negb (key_eqb (snd (fst x)) k)) (pending tr)
  | CancelledId i | Ran i _ => filter (fun x => negb (fst (fst x) =? i)) (pending tr)
  end.
Proof. unfold pending. rewrite fold_left_app. reflexivity. Qed.
Definition ids (p : list wish) : list nat := map (fun x => fst (fst x)) p.
Lemma ids_filter f p : NoDup (ids p) -> NoDup (ids (filter f p)).
Proof.
  unfold ids. induction p as [|x p IH]; cbn; intros H; [constructor|]. inversion H; subst. destruct (f x); cbn; [|now apply IH].
  constructor; [|now apply IH]. rewrite in_map_iff in *. intros (y & E & Hy). apply filter_In in Hy. apply H2. exists y. tauto.
Qed.
Lemma ids_unique p i k d k' d' : NoDup (ids p) -> In (i, k, d) p -> In (i, k', d') p -> k = k' /\ d = d'.
Proof.
  unfold ids. induction p as [|x p IH]; cbn; [intros _ []|]. intros H Ha Hb. inversion H; subst. destruct Ha as [-> |Ha], Hb as [E|Hb].
  - injection E as <- <-. auto.
  - exfalso. apply H2. cbn. change i with ((fun x : wish => fst (fst x)) (i, k', d')). now apply in_map.
  - subst x. exfalso. apply H2. cbn. change i with ((fun x : wish => fst (fst x)) (i, k, d)). now apply in_map.
  - auto.
Qed.
Lemma in_ids p i k d : In (i, k, d) p -> In i (ids p).
Proof. intros H. unfold ids. change i with ((fun x : wish => fst (fst x)) (i, k, d)). now apply in_map. Qed.
Lemma ids_in p i : In i (ids p) -> exists k d, In (i, k, d) p.
Proof. unfold ids. rewrite in_map_iff. intros ([[j k] d] & <- & H). eauto. Qed.
Lemma justified_snoc tr e : justified tr ->
  (forall i t, e = Ran i t -> (exists k due, In (i, k, due) (pending tr) /\ is_due t due) /\ forall t', ~ In (Ran i t') tr) ->
  justified (tr ++ [e]).
Proof.
  intros Hj He p i t q E. destruct q as [|x q _] using rev_ind.
  - apply app_inj_tail in E. destruct E as [<- ->]. destruct (He i t eq_refl) as ((k & d & H1 & H2) & H3). exists k, d. repeat split; auto.
  - rewrite app_comm_cons, app_assoc in E. apply app_inj_tail in E. destruct E as [-> ->]. destruct (Hj p i t q eq_refl) as (k & d & A & B & C & D).
    exists k, d. repeat split; auto. intros t'. rewrite in_app_iff. intros [H|[H|[]]]; [exact (C t' H)|]. subst x.
    destruct (He i t' eq_refl) as [_ H]. apply (H t). apply in_elt.
Qed.

(** * The invariant *)
Definition sid (x : nat * (key * nat)) : nat := snd (snd x).
Record inv (s : state) : Prop := {
  vA : forall i k d, In (i, k, d) (pending (trace s)) -> (exists l, look k (scheduled s) = Some l /\ In i l) /\
       ((In (k, i) (queue s) /\ is_due (now s) d) \/ exists n, d = Some n /\ In (n, (k, i)) (stash s));
  vB : forall k l i, look k (scheduled s) = Some l -> In i l -> exists d, In (i, k, d) (pending (trace s));
  vC : NoDup (map snd (queue s) ++ map sid (stash s));
  vC' : forall i, In i (map snd (queue s) ++ map sid (stash s)) -> i <= aid s;
  vD : forall k i, In (k, i) (queue s) \/ (exists n, In (n, (k, i)) (stash s)) -> In k (map fst (scheduled s));
  vE : forall x, In x (stash s) -> exists c, next_check s = Some c /\ c <= fst x;
  vF : forall k l, look k (scheduled s) = Some l -> NoDup l;
  vG : NoDup (ids (pending (trace s)));
  vG' : forall i, In i (ids (pending (trace s))) -> i <= aid s;
  vH : forall i t, In (Ran i t) (trace s) -> i <= aid s /\ ~ In i (ids (pending (trace s)));
  vJ : justified (trace s);
  vK : NoDup (map fst (scheduled s)) }.

Ltac prj := cbn [now queue stash next_check aid reps scheduled calls trace with_now with_queue with_stash with_aid with_reps with_scheduled note] in *.

Lemma init_inv : inv init.
Proof.
  constructor; cbn; try (intros; contradiction); try constructor; try (intros; discriminate).
  - intros k i [[]|[n []]].
  - intros p i t q E. destruct p; discriminate.
Qed.
Lemma is_due_le t t' d : t <= t' -> is_due t d -> is_due t' d.
Proof. destruct d; cbn; lia. Qed.
Lemma now_inv t s : now s <= t -> inv s -> inv (with_now t s).
Proof.
  intros Ht [A B C C' D E F G G' H J K]. constructor; prj; auto. intros i k d Hp. destruct (A i k d Hp) as [H1 [[H2 H3]|H2]]; split; auto.
  left. split; [assumption|]. eapply is_due_le; eauto.
Qed.
Lemma reps_inv x c s : inv s -> inv (with_reps x c s).
Proof. intros [A B C C' D E F G G' H J K]. constructor; prj; auto. Qed.

Lemma nodup_snoc {A} (l : list A) x : NoDup l -> ~ In x l -> NoDup (l ++ [x]).
Proof.
  induction l as [|y l IH]; cbn; intros H Hx; [repeat constructor; auto|]. inversion H; subst. constructor; [|apply IH; tauto].
  rewrite in_app_iff. cbn. intuition.
Qed.
Lemma nodup_mid {A} (l r : list A) x : NoDup (l ++ r) -> ~ In x (l ++ r) -> NoDup ((l ++ [x]) ++ r).
Proof.
  intros H Hx. rewrite <- app_assoc. cbn. apply (NoDup_Add (Add_app x l r)). auto.
Qed.
Lemma schedule_inv k d s : inv s -> inv (schedule k d s).
Proof.
  intros [A B C C' D E F G G' H J K]. unfold schedule. prj.
  set (old := match look k (scheduled s) with Some l => l | None => [] end).
  assert (forall i, In i old -> exists d, In (i, k, d) (pending (trace s))) as Ho.
  { unfold old. intros i Hi. destruct (look k (scheduled s)) as [l|] eqn:L; [|destruct Hi]. eapply B; eauto. }
  assert (NoDup old) as Hn. { unfold old. destruct (look k (scheduled s)) as [l|] eqn:L; [eapply F; eauto|constructor]. }
  assert (~ In (S (aid s)) old) as Hf. { intros Hi. destruct (Ho _ Hi) as (x & Hx). apply in_ids, G' in Hx. lia. }
  assert (~ In (S (aid s)) (ids (pending (trace s)))) as Hg. { intros Hi. apply G' in Hi. lia. }
  assert (~ In (S (aid s)) (map snd (queue s) ++ map sid (stash s))) as Hq. { intros Hi. apply C' in Hi. lia. }
  set (dd := if 0 <? d then Some (now s + d) else None).
  set (s1 := if 0 <? d then _ else _).
  assert (trace s1 = trace s ++ [Asked (S (aid s)) k dd] /\ now s1 = now s /\ aid s1 = S (aid s) /\ scheduled s1 = scheduled s) as (E1 & E2 & E3 & E4).
  { unfold s1. destruct (0 <? d); prj; auto. }
  assert (queue s1 ++ map snd (stash s1) <> [] -> True) as _ by auto.
  assert (forall k' i, In (k', i) (queue s1) \/ (exists n, In (n, (k', i)) (stash s1)) ->
            (In (k', i) (queue s) \/ (exists n, In (n, (k', i)) (stash s))) \/ (k' = k /\ i = S (aid s))) as Hnew.
  { unfold s1. destruct (0 <? d); prj; intros k' i Hi.
    - destruct Hi as [Hi|[n Hi]]; [auto|]. rewrite in_app_iff in Hi. destruct Hi as [Hi|[Hi|[]]]; [eauto|]. injection Hi as _ <- <-. auto.
    - destruct Hi as [Hi|Hi]; [|auto]. rewrite in_app_iff in Hi. destruct Hi as [Hi|[Hi|[]]]; [eauto|]. injection Hi as <- <-. auto. }
  assert (forall x, In x (queue s) -> In x (queue s1)) as Hkq. { unfold s1. destruct (0 <? d); prj; intros x Hx; rewrite ?in_app_iff; auto. }
  assert (forall x, In x (stash s) -> In x (stash s1)) as Hks. { unfold s1. destruct (0 <? d); prj; intros x Hx; rewrite ?in_app_iff; auto. }
  constructor; prj; rewrite ?E1, ?E2, ?E3, ?E4, ?pending_snoc.
  - intros i k' d' Hp. rewrite in_app_iff in Hp. rewrite look_put. destruct Hp as [Hp|[Hp|[]]].
    + destruct (A i k' d' Hp) as [(l & L1 & L2) L3]. split.
      * destruct (key_eqb_spec k' k) as [-> |]; [|eauto]. eexists. split; [reflexivity|]. unfold old. rewrite L1. rewrite in_app_iff. auto.
      * destruct L3 as [[L3 L4]|(n & -> & L3)]; [left; auto|right; eauto].
    + injection Hp as <- <- <-. rewrite key_eqb_refl. split; [eexists; split; [reflexivity|]; rewrite in_app_iff; cbn; auto|].
      unfold s1, dd. destruct (0 <? d); prj; [right|left]; [eexists; split; [reflexivity|]|split; [|exact I]]; rewrite in_app_iff; cbn; auto.
  - intros k' l i L Hi. rewrite look_put in L. destruct (key_eqb_spec k' k) as [-> |].
    + injection L as <-. rewrite in_app_iff in Hi. destruct Hi as [Hi|[<-|[]]].
      * destruct (Ho i Hi) as (x & Hx). exists x. rewrite in_app_iff. auto.
      * exists dd. rewrite in_app_iff. cbn. auto.
    + destruct (B k' l i L Hi) as (x & Hx). exists x. rewrite in_app_iff. auto.
  - unfold s1. destruct (0 <? d); prj; rewrite map_app; cbn [map sid snd].
    + rewrite app_assoc. apply nodup_snoc; assumption.
    + apply nodup_mid; assumption.
  - intros i Hi. assert (In i (map snd (queue s) ++ map sid (stash s)) \/ i = S (aid s)) as [Hx|Hx].
    { unfold s1 in Hi. destruct (0 <? d); prj; rewrite map_app, !in_app_iff in Hi; rewrite in_app_iff; cbn in Hi; intuition. }
    + apply C' in Hx. lia.
    + lia.
  - intros k' i Hi. apply keys_put. apply Hnew in Hi. destruct Hi as [Hi|[-> _]]; [right; eapply D; eauto|auto].
  - unfold s1. destruct (0 <? d); prj; [|exact E]. intros x Hx. rewrite in_app_iff in Hx. destruct Hx as [Hx|[<-|[]]].
    + destruct (E x Hx) as (c & -> & Hc). cbn. eexists. split; [reflexivity|]. lia.
    + cbn. destruct (next_check s); cbn; eexists; (split; [reflexivity|]); lia.
  - intros k' l L. rewrite look_put in L. destruct (key_eqb k' k); [|eauto]. injection L as <-. apply nodup_snoc; assumption.
  - unfold ids. rewrite map_app. cbn. apply nodup_snoc; assumption.
  - unfold ids. intros i. rewrite map_app, in_app_iff. cbn. intros [Hi|[<-|[]]]; [apply G' in Hi; lia|lia].
  - intros i t Hi. rewrite in_app_iff in Hi. destruct Hi as [Hi|[Hi|[]]]; [|discriminate]. destruct (H i t Hi) as [H1 H2]. split; [lia|].
    unfold ids. rewrite map_app, in_app_iff. cbn. intros [Hx|[Hx|[]]]; [contradiction|lia].
  - apply justified_snoc; [assumption|]. discriminate.
  - now apply put_nodup.
Qed.

Lemma forget_pending (f : wish -> bool) s m e :
  inv s -> pending (trace s ++ [e]) = filter f (pending (trace s)) -> (forall i t, e <> Ran i t) ->
  (forall i k d, In (i, k, d) (pending (trace s)) -> f (i, k, d) = true <-> exists l, look k m = Some l /\ In i l) ->
  (forall k l, look k m = Some l -> exists l', look k (scheduled s) = Some l' /\ NoDup l /\ forall i, In i l -> In i l') ->
  (forall x, In x (map fst (scheduled s)) -> In x (map fst m)) -> NoDup (map fst m) ->
  inv (note e (with_scheduled m s)).
Proof.
  intros [A B C C' D E F G G' H J K] Hp He Hf Hl Hk Hm. constructor; prj; auto; rewrite ?Hp; auto.
  - intros i k d Hi. apply filter_In in Hi. destruct Hi as [Hi Hx]. destruct (A i k d Hi) as [_ H2]. split; [|exact H2]. eapply Hf; eauto.
  - intros k l i L Hi. destruct (Hl k l L) as (l' & L' & _ & Hs). destruct (B k l' i L' (Hs i Hi)) as (d & Hd). exists d. apply filter_In. split; [assumption|].
    apply (Hf i k d Hd). eauto.
  - intros k i Hx. apply Hk. eapply D; eauto.
  - intros k l L. destruct (Hl k l L) as (l' & _ & N & _). exact N.
  - now apply ids_filter.
  - intros i Hi. apply G'. unfold ids in *. rewrite in_map_iff in *. destruct Hi as (x & Ex & Hx). apply filter_In in Hx. exists x. tauto.
  - intros i t Hi. rewrite in_app_iff in Hi. destruct Hi as [Hi|[Hi|[]]]; [|exfalso; exact (He i t Hi)]. destruct (H i t Hi) as [H1 H2]. split; [assumption|].
    intros Hx. apply H2. unfold ids in *. rewrite in_map_iff in *. destruct Hx as (x & Ex & Hx). apply filter_In in Hx. exists x. tauto.
  - apply justified_snoc; [assumption|]. intros i t Ei. exfalso. exact (He i t Ei).
Qed.
Lemma cancel_all_inv k s : inv s -> inv (cancel_all k s).
Proof.
  intros Hi. unfold cancel_all.
  assert (forall m, (forall k', look k' m = if key_eqb k' k then option_map (fun _ => []) (look k (scheduled s)) else look k' (scheduled s)) ->
            (forall x, In x (map fst (scheduled s)) -> In x (map fst m)) -> NoDup (map fst m) -> inv (note (CancelledAll k) (with_scheduled m s))) as Hx.
  { intros m L Hk Hn. eapply forget_pending; [exact Hi|rewrite pending_snoc; reflexivity|discriminate| | |exact Hk|exact Hn].
    - intros i k' d Hp. cbn. rewrite L. destruct (key_eqb_spec k' k) as [-> |N]; cbn.
      + split; [discriminate|]. intros (l & E & Hl). destruct (look k (scheduled s)); [|discriminate]. injection E as <-. destruct Hl.
      + split; [intros _|reflexivity]. apply (vA s Hi i k' d Hp).
    - intros k' l E. rewrite L in E. destruct (key_eqb_spec k' k) as [-> |N].
      + destruct (look k (scheduled s)) as [l'|]; [|discriminate]. injection E as <-. exists l'. split; [reflexivity|]. split; [constructor|intros i []].
      + exists l. split; [assumption|]. split; [eapply vF; eauto|auto]. }
  destruct (look k (scheduled s)) as [l|] eqn:E.
  - apply Hx; [|intros x H; apply keys_put; auto|apply put_nodup, Hi]. intros k'. rewrite look_put. destruct (key_eqb k' k); reflexivity.
  - specialize (Hx (scheduled s)). assert (with_scheduled (scheduled s) s = s) as Es by (destruct s; reflexivity). rewrite Es in Hx. apply Hx; [|auto|apply Hi].
    intros k'. destruct (key_eqb_spec k' k) as [-> |]; [assumption|reflexivity].
Qed.
Lemma cross s i k l k' l' : inv s -> look k (scheduled s) = Some l -> look k' (scheduled s) = Some l' -> In i l -> In i l' -> k = k'.
Proof.
  intros Hi L L' H H'. destruct (vB s Hi k l i L H) as (d & Hd). destruct (vB s Hi k' l' i L' H') as (d' & Hd').
  eapply ids_unique; [apply (vG s Hi)|exact Hd|exact Hd'].
Qed.
Lemma cancel_id_inv i s : inv s -> inv (cancel_id i s).
Proof.
  intros Hi. unfold cancel_id.
  assert (forall k, look k (drop_id i (scheduled s)) = option_map (drop i) (look k (scheduled s))) as L.
  { intros k. apply look_drop_id; [apply Hi|]. intros; eapply cross; eauto. }
  eapply forget_pending; [exact Hi|rewrite pending_snoc; reflexivity|discriminate| | | |].
  - intros j k d Hp. cbn. rewrite L. destruct (vA s Hi j k d Hp) as [(l & E & Hl) _]. rewrite E. cbn. rewrite negb_true_iff, Nat.eqb_neq. split.
    + intros N. eexists. split; [reflexivity|]. apply drop_in; [eapply vF; eauto|auto].
    + intros (l' & [= <-] & Hl'). apply drop_in in Hl'; [tauto|eapply vF; eauto].
  - intros k l E. rewrite L in E. destruct (look k (scheduled s)) as [l'|] eqn:E'; [|discriminate]. injection E as <-. exists l'. split; [reflexivity|].
    assert (NoDup l') by (eapply vF; eauto). split; [now apply drop_nodup|]. intros j Hj. apply drop_in in Hj; tauto.
  - rewrite keys_drop_id. auto.
  - rewrite keys_drop_id. apply Hi.
Qed.

(** taking from the queue *)
Lemma pop_inv s k i q : inv s -> queue s = (k, i) :: q -> (forall l, look k (scheduled s) = Some l -> ~ In i l) -> inv (with_queue q s).
Proof.
  intros [A B C C' D E F G G' H J K] Hq Hn. rewrite Hq in *. constructor; prj; auto.
  - intros j k' d Hp. destruct (A j k' d Hp) as [(l & L & Hl) H2]. split; [eauto|]. destruct H2 as [[[H2|H2] H3]|H2]; auto.
    injection H2 as <- <-. exfalso. eapply Hn; eauto.
  - cbn in C. now inversion C.
  - intros j Hj. apply C'. cbn. auto.
  - intros k' j Hj. apply (D k' j). destruct Hj as [Hj|Hj]; [left; now right|auto].
Qed.
Lemma ran_inv s k i q l : inv s -> queue s = (k, i) :: q -> look k (scheduled s) = Some l -> In i l ->
  inv (note (Ran i (now s)) (with_scheduled (put k (drop i l) (scheduled s)) (with_queue q s))) /\
  exists d, In (i, k, d) (pending (trace s)) /\ is_due (now s) d.
Proof.
  intros Hi Hq L Hl. pose proof Hi as [A B C C' D E F G G' H J K].
  destruct (B k l i L Hl) as (d0 & Hd0). rewrite Hq in *.
  assert (is_due (now s) d0) as Hdue.
  { destruct (A i k d0 Hd0) as [_ [[_ H3]|(n & -> & H3)]]; [assumption|]. exfalso. cbn in C. inversion C as [|? ? C1 C2]. apply C1. rewrite in_app_iff. right.
    change i with (sid (n, (k, i))). now apply in_map. }
  split; [|eauto]. assert (NoDup l) as Nl by eauto.
  assert (forall k' l' j, look k' (put k (drop i l) (scheduled s)) = Some l' -> In j l' -> exists l0, look k' (scheduled s) = Some l0 /\ In j l0 /\ j <> i) as Lk.
  { intros k' l' j E' Hj. rewrite look_put in E'. destruct (key_eqb_spec k' k) as [-> |N].
    - injection E' as <-. apply drop_in in Hj; [|assumption]. exists l. tauto.
    - exists l'. split; [assumption|]. split; [assumption|]. intros ->. apply N. eapply cross; eauto. }
  assert (forall x : wish, In x (filter (fun x => negb (fst (fst x) =? i)) (pending (trace s))) <-> In x (pending (trace s)) /\ fst (fst x) <> i) as Pf.
  { intros x. rewrite filter_In, negb_true_iff, Nat.eqb_neq. reflexivity. }
  constructor; prj; rewrite ?pending_snoc.
  - intros j k' d Hp. apply Pf in Hp. destruct Hp as [Hp Hne]. cbn in Hne. destruct (A j k' d Hp) as [(l' & L' & Hl') H2]. split.
    + rewrite look_put. destruct (key_eqb_spec k' k) as [-> |]; [|eauto]. eexists. split; [reflexivity|]. rewrite L in L'. injection L' as <-.
      apply drop_in; auto.
    + destruct H2 as [[[H2|H2] H3]|H2]; auto. injection H2 as <- <-. congruence.
  - intros k' l' j E' Hj. destruct (Lk k' l' j E' Hj) as (l0 & E0 & H0 & Hne). destruct (B k' l0 j E0 H0) as (d & Hd). exists d. apply Pf. auto.
  - cbn in C. now inversion C.
  - intros j Hj. apply C'. cbn. auto.
  - intros k' j Hj. apply keys_put. right. apply (D k' j). destruct Hj as [Hj|Hj]; [left; now right|auto].
  - exact E.
  - intros k' l' E'. rewrite look_put in E'. destruct (key_eqb k' k); [|eauto]. injection E' as <-. now apply drop_nodup.
  - now apply ids_filter.
  - intros j Hj. apply G'. unfold ids in *. rewrite in_map_iff in *. destruct Hj as (x & Ex & Hx). apply filter_In in Hx. exists x. tauto.
  - intros j t Hj. rewrite in_app_iff in Hj. destruct Hj as [Hj|[Hj|[]]].
    + destruct (H j t Hj) as [H1 H2]. split; [assumption|]. intros Hx. apply H2. unfold ids in *. rewrite in_map_iff in *. destruct Hx as (x & Ex & Hx). apply Pf in Hx. exists x. tauto.
    + injection Hj as <- <-. split; [apply C'; cbn; auto|]. intros Hx. apply ids_in in Hx. destruct Hx as (k' & d & Hx). apply Pf in Hx. cbn in Hx. tauto.
  - apply justified_snoc; [assumption|]. intros j t [= <- <-]. split; [eauto|]. intros t' Hx. destruct (H i t' Hx) as [_ H2]. apply H2. eapply in_ids; eauto.
  - now apply put_nodup.
Qed.

(** * The stash *)
Lemma fold_omin l : forall a, match fold_left (fun e (x : nat * (key * nat)) => omin e (fst x)) l a with
  | None => a = None /\ l = []
  | Some c => (forall x, In x l -> c <= fst x) /\ (forall b, a = Some b -> c <= b) end.
Proof.
  induction l as [|x l IH]; intros a; cbn [fold_left].
  - destruct a; [|auto]. split; [intros y []|]. intros b [= ->]. auto.
  - specialize (IH (omin a (fst x))). destruct (fold_left _ l _) as [c|].
    + destruct IH as [H1 H2]. assert (c <= fst x /\ (forall b, a = Some b -> c <= b)) as [H3 H4].
      { destruct a as [b|]; cbn in H2.
        - specialize (H2 _ eq_refl). split; [lia|]. intros b' [= <-]. lia.
        - specialize (H2 _ eq_refl). split; [lia|]. discriminate. }
      split; [intros y [<-|Hy]; auto|assumption].
    + destruct IH as [H1 _]. destruct a; discriminate.
Qed.
Lemma perm_split (f : nat * (key * nat) -> bool) l i : In i (map sid l) <-> In i (map sid (filter f l)) \/ In i (map sid (filter (fun x => negb (f x)) l)).
Proof.
  rewrite !in_map_iff. split.
  - intros (x & <- & H). destruct (f x) eqn:E; [left|right]; exists x; rewrite filter_In, ?E; auto.
  - intros [(x & <- & H)|(x & <- & H)]; apply filter_In in H; exists x; tauto.
Qed.
Lemma nodup_split (f : nat * (key * nat) -> bool) l q : NoDup (q ++ map sid l) ->
  NoDup ((rev (map sid (filter f l)) ++ q) ++ map sid (filter (fun x => negb (f x)) l)).
Proof.
  intros H.
  assert (NoDup (map sid (filter f l) ++ q ++ map sid (filter (fun x => negb (f x)) l))) as H1.
  { revert q H. induction l as [|x l IH]; intros q H; cbn; [cbn in H; rewrite app_nil_r in *; assumption|]. destruct (f x); cbn.
    - cbn in H. apply NoDup_remove in H. destruct H as [H Hx]. constructor; [|now apply IH].
      rewrite !in_app_iff in *. intros Hy. apply Hx. rewrite (perm_split f l (sid x)). tauto.
    - specialize (IH (q ++ [sid x])). rewrite <- !app_assoc in IH. cbn in IH. apply IH. exact H. }
  rewrite <- app_assoc. clear H. induction (map sid (filter f l)) as [|y m IH]; [exact H1|]. cbn in *. inversion H1; subst. specialize (IH H3).
  rewrite <- app_assoc. cbn. apply (NoDup_Add (Add_app y (rev m) _)). split; [assumption|]. rewrite !in_app_iff, <- in_rev. rewrite !in_app_iff in H2. tauto.
Qed.
Lemma take_due_inv s : inv s -> inv (take_due s) /\ now (take_due s) = now s /\ trace (take_due s) = trace s /\ reps (take_due s) = reps s /\
  (forall x, In x (stash (take_due s)) -> now s <= fst x).
Proof.
  intros Hi. unfold take_due. destruct (stash s) as [|x0 st] eqn:Es; [rewrite Es; split; [assumption|]; repeat split; auto; intros x []|]. rewrite <- Es.
  destruct (match next_check s with Some c => c <? now s | None => false end) eqn:En.
  2:{ split; [assumption|]. repeat split; auto. intros x Hx. destruct (vE s Hi x Hx) as (c & Ec & Hc). rewrite Ec in En. apply Nat.ltb_ge in En. lia. }
  split; [|prj; repeat split; auto; intros x Hx; apply filter_In in Hx; destruct Hx as [_ Hx]; apply negb_true_iff in Hx; unfold due in Hx; apply Nat.ltb_ge in Hx; assumption].
  pose proof Hi as [A B C C' D E F G G' H J K].
  assert (forall k i, In (k, i) (rev (map snd (filter (due (now s)) (stash s)))) <-> exists n, In (n, (k, i)) (stash s) /\ n < now s) as Hr.
  { intros k i. rewrite <- in_rev, in_map_iff. split.
    - intros ([n x] & <- & Hx). apply filter_In in Hx. destruct Hx as [Hx Hd]. unfold due in Hd. apply Nat.ltb_lt in Hd. exists n. auto.
    - intros (n & Hx & Hd). exists (n, (k, i)). split; [reflexivity|]. apply filter_In. split; [assumption|]. unfold due. now apply Nat.ltb_lt. }
  constructor; prj; auto.
  - intros i k d Hp. destruct (A i k d Hp) as [H1 H2]. split; [assumption|]. destruct H2 as [[H2 H3]|(n & -> & H2)].
    + left. rewrite in_app_iff. auto.
    + destruct (Nat.lt_ge_cases n (now s)) as [L|L]; [left|right].
      * split; [|exact L]. rewrite in_app_iff. left. apply Hr. eauto.
      * exists n. split; [reflexivity|]. apply filter_In. split; [assumption|]. unfold due. apply negb_true_iff, Nat.ltb_ge. assumption.
  - rewrite map_app, map_rev, map_map. apply (nodup_split (due (now s)) (stash s) (map snd (queue s)) C).
  - intros i Hi'. apply C'. rewrite map_app, map_rev, map_map, !in_app_iff, <- in_rev in Hi'. rewrite in_app_iff, (perm_split (due (now s))). unfold sid. tauto.
  - intros k i Hx. apply (D k i). destruct Hx as [Hx|[n Hx]].
    + rewrite in_app_iff in Hx. destruct Hx as [Hx|Hx]; [|auto]. apply Hr in Hx. destruct Hx as (n & Hx & _). right. eauto.
    + apply filter_In in Hx. right. exists n. tauto.
  - intros x Hx. apply filter_In in Hx. destruct Hx as [Hx _]. pose proof (fold_omin (stash s) None) as Hm.
    destruct (fold_left _ (stash s) None) as [c|]; [|destruct Hm as [_ Hm]; rewrite Hm in Hx; destruct Hx]. destruct Hm as [Hm _]. exists c. split; [reflexivity|]. auto.
Qed.

(** * Commands and programs *)
Lemma start_inv a d s : inv s -> inv (start a d s).
Proof. intros H. unfold start. destruct (mem a (reps s)); [assumption|]. now apply schedule_inv, reps_inv. Qed.
Lemma exec_inv s c : inv s -> inv (fst (exec s c)).
Proof.
  intros H. destruct c; cbn [exec fst].
  - now apply schedule_inv.
  - now apply cancel_all_inv.
  - now apply cancel_id_inv.
  - now apply start_inv.
  - unfold stop. destruct (mem a (reps s)); cbn [fst]; [now apply reps_inv|assumption].
  - apply now_inv; [lia|assumption].
  - assumption.
Qed.
(** time goes on, the trace and the keys grow *)
Definition goes (s s' : state) : Prop :=
  now s <= now s' /\ (exists tr, trace s' = trace s ++ tr) /\ (forall k, In k (map fst (scheduled s)) -> In k (map fst (scheduled s'))) /\
  (forall t, t <= now s -> (forall x, In x (stash s) -> t <= fst x) -> forall x, In x (stash s') -> t <= fst x).
Lemma goes_refl s : goes s s.
Proof. repeat split; auto. exists []. now rewrite app_nil_r. Qed.
Lemma goes_trans s1 s2 s3 : goes s1 s2 -> goes s2 s3 -> goes s1 s3.
Proof.
  intros (A & (t & B) & C & D) (A' & (t' & B') & C' & D'). split; [lia|]. split; [exists (t ++ t'); rewrite B', B, app_assoc; reflexivity|]. split; [auto|].
  intros x Hx H. apply (D' x); [lia|]. apply D; assumption.
Qed.
Lemma schedule_goes k d s : goes s (schedule k d s).
Proof.
  unfold schedule, goes. destruct (Nat.ltb_spec 0 d); prj; (split; [lia|]; split; [eexists; reflexivity|]; split; [intros x Hx; apply keys_put; auto|]); auto.
  intros t Ht Hs x. rewrite in_app_iff. intros [Hx|[<-|[]]]; [auto|]. cbn. lia.
Qed.
Lemma exec_goes s c : goes s (fst (exec s c)).
Proof.
  destruct c; cbn [exec fst].
  - apply schedule_goes.
  - unfold cancel_all, goes. destruct (look (Plain a) (scheduled s)); prj; (split; [lia|]; split; [eexists; reflexivity|]; split; [|auto]); [|auto].
    intros x Hx. apply keys_put. auto.
  - unfold cancel_id, goes. prj. rewrite keys_drop_id. split; [lia|]. split; [eexists; reflexivity|]. auto.
  - unfold start. destruct (mem a (reps s)); [apply goes_refl|]. eapply goes_trans; [|apply schedule_goes]. unfold goes. prj.
    split; [lia|]. split; [exists []; now rewrite app_nil_r|]. auto.
  - unfold stop. destruct (mem a (reps s)); cbn [fst]; [|apply goes_refl]. unfold goes. prj. split; [lia|]. split; [exists []; now rewrite app_nil_r|]. auto.
  - unfold goes. prj. split; [lia|]. split; [exists []; now rewrite app_nil_r|]. auto.
  - apply goes_refl.
Qed.
Lemma exec_all_ok cs : forall s, inv s -> inv (fst (exec_all s cs)) /\ goes s (fst (exec_all s cs)).
Proof.
  induction cs as [|c cs IH]; intros s H; cbn [exec_all fst]; [split; [assumption|apply goes_refl]|].
  pose proof (exec_inv s c H) as H1. pose proof (exec_goes s c) as H2. destruct (exec s c) as [s1 e]. cbn [fst] in *. destruct e; cbn [fst]; [auto|].
  destruct (IH s1 H1) as [H3 H4]. split; [assumption|]. eapply goes_trans; eauto.
Qed.

Section Queue.
  Variable prog : nat -> list cmd.
  Notation run_key := (run_key prog).
  Notation loop := (loop prog).
  Notation service := (service prog).
  Notation step := (step prog).
  Notation run := (run prog).

  Lemma run_key_ok k s : inv s -> inv (fst (run_key k s)) /\ goes s (fst (run_key k s)).
  Proof.
    intros H. destruct k as [a|c a d]; cbn [Aq_Model.run_key]; [now apply exec_all_ok|]. destruct (mem a (reps s)); [|split; [assumption|apply goes_refl]].
    destruct (exec_all_ok (prog a) s H) as [H1 H2]. destruct (exec_all s (prog a)) as [s1 e]. cbn [fst] in *. destruct e; cbn [fst]; [auto|].
    split; [now apply schedule_inv|]. eapply goes_trans; [exact H2|apply schedule_goes].
  Qed.
  Lemma pop_goes q s : goes s (with_queue q s).
  Proof. unfold goes. prj. split; [lia|]. split; [exists []; now rewrite app_nil_r|]. auto. Qed.
  Lemma loop_ok n : forall s, inv s -> inv (fst (loop n s)) /\ goes s (fst (loop n s)) /\ (snd (loop n s) = Done -> queue (fst (loop n s)) = []).
  Proof.
    induction n as [|n IH]; intros s H; cbn [Aq_Model.loop]; destruct (queue s) as [|[k i] q] eqn:Hq; try (split; [exact H|split; [apply goes_refl|intros E; first [exact Hq|discriminate]]]).
    cbn [scheduled with_queue]. destruct (look k (scheduled s)) as [l|] eqn:L.
    2:{ exfalso. apply look_none in L. apply L. apply (vD s H k i). rewrite Hq. left. now left. }
    destruct (mem i l) eqn:M.
    - apply mem_in in M. destruct (ran_inv s k i q l H Hq L M) as [H1 _]. cbn [now with_queue].
      set (s1 := note _ _) in *.
      assert (goes s s1) as G1.
      { unfold s1, goes. prj. split; [lia|]. split; [eexists; reflexivity|]. split; [|auto]. intros x Hx. apply keys_put. auto. }
      clearbody s1. destruct (run_key_ok k s1 H1) as [H2 G2]. destruct (run_key k s1) as [s2 e]. cbn [fst] in *.
      destruct e; [cbn [fst snd]; split; [assumption|]; split; [eapply goes_trans; eauto|discriminate]|].
      destruct (IH s2 H2) as (H3 & G3 & E3). split; [assumption|]. split; [|assumption]. eapply goes_trans; [|exact G3]. eapply goes_trans; eauto.
    - assert (inv (with_queue q s)) as H1. { eapply pop_inv; eauto. intros l' L' Hl. rewrite L in L'. injection L' as <-. apply mem_in in Hl. congruence. }
      destruct (IH _ H1) as (H3 & G3 & E3). split; [assumption|]. split; [|assumption]. eapply goes_trans; [apply pop_goes|exact G3].
  Qed.
  Lemma take_goes s : inv s -> goes s (take_due s).
  Proof.
    intros H. destruct (take_due_inv s H) as (_ & E1 & E2 & _ & _). unfold goes. rewrite E1, E2. split; [lia|]. split; [exists []; now rewrite app_nil_r|].
    unfold take_due. destruct (stash s) as [|x st] eqn:Es; [rewrite Es; auto|]. rewrite <- Es. destruct (match next_check s with Some c => c <? now s | None => false end); prj; [|auto].
    split; [auto|]. intros t _ Hx y Hy. apply filter_In in Hy. apply Hx. tauto.
  Qed.
  Lemma service_ok n s : inv s -> inv (fst (service n s)) /\ goes s (fst (service n s)).
  Proof.
    intros H. unfold Aq_Model.service. destruct (take_due_inv s H) as (H1 & _). destruct (loop_ok n _ H1) as (H2 & G2 & _). split; [assumption|].
    eapply goes_trans; [now apply take_goes|exact G2].
  Qed.
  Lemma service_done n s : inv s -> snd (service n s) = Done -> forall i k d, In (i, k, d) (pending (trace (fst (service n s)))) -> exists t, d = Some t /\ now s <= t.
  Proof.
    intros H E i k d Hp. unfold Aq_Model.service in *. destruct (take_due_inv s H) as (H1 & En & _ & _ & Hs). destruct (loop_ok n _ H1) as (H2 & G2 & E2).
    specialize (E2 E). destruct (vA _ H2 i k d Hp) as [_ [[Hq _]|(t & -> & Ht)]]; [rewrite E2 in Hq; destruct Hq|]. exists t. split; [reflexivity|].
    destruct G2 as (_ & _ & _ & G). specialize (G (now s)). rewrite En in G. apply (G (le_n _) Hs _ Ht).
  Qed.
  Lemma step_ok s o : inv s -> inv (step s o) /\ goes s (step s o).
  Proof. intros H. destruct o; cbn [Aq_Model.step]; [split; [now apply exec_inv|apply exec_goes]|now apply service_ok]. Qed.
  Lemma run_ok os : forall s, inv s -> inv (run s os) /\ goes s (run s os).
  Proof.
    induction os as [|o os IH]; intros s H; [split; [assumption|apply goes_refl]|]. cbn. destruct (step_ok s o H) as [H1 G1]. destruct (IH _ H1) as [H2 G2].
    split; [assumption|]. eapply goes_trans; eauto.
  Qed.

  (** * Repeating *)
  Variable a0 : nat.
  Hypothesis prog_calm : forall a c, In c (prog a) -> calm a0 c.
  Definition cnt (s : state) : nat := length (filter (fun x => repeats a0 (snd (fst x))) (pending (trace s))).
  Lemma cnt_other k d s : repeats a0 k = false -> cnt (schedule k d s) = cnt s.
  Proof.
    intros H. unfold cnt, schedule. destruct (0 <? d); prj; rewrite pending_snoc, filter_app; cbn [filter snd fst]; rewrite H; now rewrite app_nil_r.
  Qed.
  Lemma cnt_this k d s : repeats a0 k = true -> cnt (schedule k d s) = S (cnt s).
  Proof.
    intros H. unfold cnt, schedule. destruct (0 <? d); prj; rewrite pending_snoc, filter_app; cbn [filter snd fst]; rewrite H; rewrite app_length; cbn; lia.
  Qed.
  Lemma reps_schedule k d s : reps (schedule k d s) = reps s.
  Proof. unfold schedule. destruct (0 <? d); reflexivity. Qed.
  Lemma filter_filter_id {A} (f g : A -> bool) l : (forall x, f x = true -> g x = true) -> filter f (filter g l) = filter f l.
  Proof. intros H. induction l as [|x l IH]; cbn; [reflexivity|]. destruct (g x) eqn:E; cbn; [now rewrite IH|]. destruct (f x) eqn:E'; [rewrite (H x E') in E; discriminate|exact IH]. Qed.
  Lemma exec_calm s c : calm a0 c -> snd (exec s c) = false /\
    let s' := fst (exec s c) in
    (mem a0 (reps s) = true -> mem a0 (reps s') = true /\ cnt s' = cnt s) /\
    (mem a0 (reps s) = false -> (mem a0 (reps s') = false /\ cnt s' = cnt s) \/ (mem a0 (reps s') = true /\ cnt s' = S (cnt s))).
  Proof.
    intros H. destruct c; cbn [exec fst snd calm] in *; try contradiction.
    - split; [reflexivity|]. rewrite reps_schedule, cnt_other by reflexivity. auto.
    - split; [reflexivity|]. assert (cnt (cancel_all (Plain a) s) = cnt s) as ->.
      { unfold cnt, cancel_all. destruct (look (Plain a) (scheduled s)); prj; rewrite pending_snoc, filter_filter_id; auto; intros [[i k] d]; cbn; destruct k; auto; discriminate. }
      assert (reps (cancel_all (Plain a) s) = reps s) as ->. { unfold cancel_all. destruct (look (Plain a) (scheduled s)); reflexivity. }
      auto.
    - split; [reflexivity|]. unfold start. destruct (mem a (reps s)) eqn:M; [auto|].
      rewrite reps_schedule. prj. destruct (Nat.eqb_spec a a0) as [-> |N].
      + rewrite cnt_this by (cbn; apply Nat.eqb_refl). change (cnt (with_reps (reps s ++ [a0]) (S (calls s)) s)) with (cnt s). rewrite M. split; [discriminate|]. intros _. right.
        split; [|reflexivity]. apply mem_in. rewrite in_app_iff. cbn. auto.
      + rewrite cnt_other by (cbn; now apply Nat.eqb_neq). change (cnt (with_reps (reps s ++ [a]) (S (calls s)) s)) with (cnt s).
        assert (mem a0 (reps s ++ [a]) = mem a0 (reps s)) as ->. { unfold mem. rewrite existsb_app. cbn. apply Nat.eqb_neq in N. rewrite Nat.eqb_sym in N. rewrite N. cbn. now rewrite !orb_false_r. }
        auto.
    - destruct H as [H ->]. unfold stop. destruct (mem a (reps s)) eqn:M; cbn [fst snd]; [|auto]. split; [reflexivity|]. prj.
      assert (mem a0 (filter (fun x => negb (x =? a)) (reps s)) = mem a0 (reps s)) as ->.
      { apply eq_true_iff_eq. rewrite !mem_in, filter_In, negb_true_iff, Nat.eqb_neq. intuition. }
      change (cnt (with_reps (filter (fun x => negb (x =? a)) (reps s)) (calls s) s)) with (cnt s). auto.
    - split; [reflexivity|]. prj. change (cnt (with_now (now s + d) s)) with (cnt s). auto.
  Qed.
  Lemma exec_all_calm cs : (forall c, In c cs -> calm a0 c) -> forall s, snd (exec_all s cs) = false /\
    let s' := fst (exec_all s cs) in
    (mem a0 (reps s) = true -> mem a0 (reps s') = true /\ cnt s' = cnt s) /\
    (mem a0 (reps s) = false -> (mem a0 (reps s') = false /\ cnt s' = cnt s) \/ (mem a0 (reps s') = true /\ cnt s' = S (cnt s))).
  Proof.
    induction cs as [|c cs IH]; intros H s; cbn [exec_all fst snd]; [auto|].
    destruct (exec_calm s c (H c (or_introl eq_refl))) as [E1 H1]. destruct (exec s c) as [s1 e]. cbn [fst snd] in *. subst e.
    destruct (IH (fun x Hx => H x (or_intror Hx)) s1) as [E2 H2]. split; [assumption|]. cbv zeta in *. destruct H1 as [P1 Q1], H2 as [P2 Q2]. split.
    - intros M. destruct (P1 M) as [M1 C1]. destruct (P2 M1) as [M2 C2]. split; [assumption|congruence].
    - intros M. destruct (Q1 M) as [[M1 C1]|[M1 C1]].
      + destruct (Q2 M1) as [[M2 C2]|[M2 C2]]; [left|right]; (split; [assumption|congruence]).
      + destruct (P2 M1) as [M2 C2]. right. split; [assumption|congruence].
  Qed.
  (** exactly one wish for it while it is repeated, none before *)
  Definition one (s : state) : Prop := cnt s = if mem a0 (reps s) then 1 else 0.
  Lemma exec_all_one cs s : (forall c, In c cs -> calm a0 c) -> one s -> snd (exec_all s cs) = false /\ one (fst (exec_all s cs)).
  Proof.
    intros H Ho. destruct (exec_all_calm cs H s) as [E [P Q]]. split; [assumption|]. cbv zeta in *. unfold one in *. destruct (mem a0 (reps s)).
    - destruct (P eq_refl) as [-> ->]. assumption.
    - destruct (Q eq_refl) as [[-> ->]|[-> ->]]; lia.
  Qed.
  Lemma cnt_pos s i k d : In (i, k, d) (pending (trace s)) -> repeats a0 k = true -> 1 <= cnt s.
  Proof.
    intros H R. unfold cnt. assert (In (i, k, d) (filter (fun x => repeats a0 (snd (fst x))) (pending (trace s)))) as Hx by (apply filter_In; auto).
    destruct (filter _ _); [destruct Hx|cbn; lia].
  Qed.
  Lemma cnt_ran p i k d : NoDup (ids p) -> In (i, k, d) p ->
    length (filter (fun x : wish => repeats a0 (snd (fst x))) (filter (fun x : wish => negb (fst (fst x) =? i)) p)) =
    length (filter (fun x : wish => repeats a0 (snd (fst x))) p) - (if repeats a0 k then 1 else 0).
  Proof.
    unfold ids. induction p as [|x p IH]; [intros _ []|]. cbn [map]. intros N H. inversion N as [|? ? N1 N2]; subst.
    assert (forall q : list wish, ~ In i (map (fun x : wish => fst (fst x)) q) -> filter (fun x : wish => negb (fst (fst x) =? i)) q = q) as Hout.
    { clear. induction q as [|y q IH]; cbn; [reflexivity|]. intros H. destruct (Nat.eqb_spec (fst (fst y)) i); [exfalso; apply H; now left|]. cbn. f_equal. apply IH. tauto. }
    destruct H as [-> |H].
    - cbn [filter fst snd]. rewrite Nat.eqb_refl. cbn [negb]. rewrite Hout by exact N1. destruct (repeats a0 k); cbn; lia.
    - assert (fst (fst x) <> i) as Hne. { intros E. apply N1. rewrite E. change i with ((fun x : wish => fst (fst x)) (i, k, d)). now apply in_map. }
      cbn [filter]. apply Nat.eqb_neq in Hne. rewrite Hne. cbn [negb filter]. pose proof (IH N2 H) as E. destruct (repeats a0 (snd (fst x))) eqn:R; cbn [length]; [|exact E].
      rewrite E. destruct (repeats a0 k) eqn:Rk; [|lia].
      assert (1 <= length (filter (fun x : wish => repeats a0 (snd (fst x))) p)); [|lia].
      assert (In (i, k, d) (filter (fun x : wish => repeats a0 (snd (fst x))) p)) as Hx by (apply filter_In; auto).
      destruct (filter (fun x : wish => repeats a0 (snd (fst x))) p); [destruct Hx|cbn; lia].
  Qed.
  Lemma loop_one n : forall s, inv s -> one s -> snd (loop n s) <> Raised /\ one (fst (loop n s)).
  Proof.
    induction n as [|n IH]; intros s H Ho; cbn [Aq_Model.loop]; destruct (queue s) as [|[k i] q] eqn:Hq; try (split; [discriminate|exact Ho]).
    cbn [scheduled with_queue]. destruct (look k (scheduled s)) as [l|] eqn:L.
    2:{ exfalso. apply look_none in L. apply L. apply (vD s H k i). rewrite Hq. left. now left. }
    destruct (mem i l) eqn:M.
    - apply mem_in in M. destruct (ran_inv s k i q l H Hq L M) as [H1 (d & Hp & _)]. cbn [now with_queue]. set (s1 := note _ _) in *.
      assert (cnt s1 = cnt s - (if repeats a0 k then 1 else 0)) as C1. { unfold s1, cnt. prj. rewrite pending_snoc. apply (cnt_ran _ i k d (vG s H) Hp). }
      assert (reps s1 = reps s) as R1 by reflexivity. clearbody s1.
      assert (snd (run_key k s1) = false /\ one (fst (run_key k s1))) as [E2 O2].
      { destruct k as [a|c a d']; cbn [Aq_Model.run_key repeats] in *.
        - rewrite Nat.sub_0_r in C1. apply exec_all_one; [apply prog_calm|]. unfold one. rewrite C1, R1. exact Ho.
        - destruct (mem a (reps s1)) eqn:Ma.
          + destruct (exec_all_calm (prog a) (prog_calm a) s1) as [E [P Q]]. cbv zeta in *. destruct (Nat.eqb_spec a a0) as [-> |N].
            * destruct (P Ma) as [P1 P2]. destruct (exec_all s1 (prog a0)) as [s2 e]. cbn [fst snd] in *. subst e. cbn [fst snd]. split; [reflexivity|].
              unfold one. rewrite reps_schedule, P1, cnt_this by (cbn; apply Nat.eqb_refl). rewrite P2, C1. unfold one in Ho. rewrite <- R1, Ma in Ho. lia.
            * assert (one s1) as O1 by (unfold one; rewrite C1, R1, Nat.sub_0_r; exact Ho).
              destruct (exec_all_one (prog a) s1 (prog_calm a) O1) as [_ O2]. destruct (exec_all s1 (prog a)) as [s2 e]. cbn [fst snd] in *. subst e. cbn [fst snd]. split; [reflexivity|].
              unfold one. rewrite reps_schedule, cnt_other by (cbn; now apply Nat.eqb_neq). exact O2.
          + cbn [fst snd]. split; [reflexivity|]. unfold one in *. rewrite C1, R1. rewrite R1 in Ma. destruct (Nat.eqb_spec a a0) as [-> |N]; [|rewrite Nat.sub_0_r; exact Ho].
            rewrite Ma in *. lia. }
      destruct (run_key_ok k s1 H1) as [H2 _]. destruct (run_key k s1) as [s2 e]. cbn [fst snd] in *. subst e. apply IH; assumption.
    - apply IH; [|exact Ho]. eapply pop_inv; eauto. intros l' L' Hl. rewrite L in L'. injection L' as <-. apply mem_in in Hl. congruence.
  Qed.
  Lemma service_one n s : inv s -> one s -> snd (service n s) <> Raised /\ one (fst (service n s)).
  Proof.
    intros H Ho. unfold Aq_Model.service. destruct (take_due_inv s H) as (H1 & _ & E1 & E2 & _). apply loop_one; [assumption|]. unfold one, cnt. rewrite E1, E2. exact Ho.
  Qed.
  Lemma run_one os : forall s, (forall o, In o os -> calm_op a0 o) -> inv s -> one s -> one (run s os).
  Proof.
    induction os as [|o os IH]; intros s Hc H Ho; [assumption|]. cbn. apply IH; [intros x Hx; apply Hc; now right|now apply step_ok|].
    specialize (Hc o (or_introl eq_refl)). destruct o as [c|n]; cbn [Aq_Model.step calm_op] in *; [|now apply service_one].
    pose proof (exec_all_one [c] s) as E. cbn [exec_all] in E. destruct (exec s c) as [s1 e] eqn:Ex. cbn [fst]. destruct e; cbn [fst snd] in E.
    - destruct E as [E _]; [intros x [<-|[]]; assumption|assumption|discriminate].
    - apply E; [intros x [<-|[]]; assumption|assumption].
  Qed.
End Queue.

(** * Dates *)
Definition dated (s : state) : Prop := forall i c a d x, In (i, Wrap c a d, x) (pending (trace s)) -> (d = 0 /\ x = None) \/ exists n, x = Some n /\ n <= now s + d.
Lemma dated_schedule k d s : (forall c a e, k = Wrap c a e -> e = d) -> dated s -> dated (schedule k d s).
Proof.
  intros Hk H i c a e x Hi. unfold schedule in *.
  assert (In (i, Wrap c a e, x) (pending (trace s)) \/ (k = Wrap c a e /\ x = if 0 <? d then Some (now s + d) else None)) as [Hp|[-> ->]].
  { destruct (0 <? d); prj; rewrite pending_snoc, in_app_iff in Hi; destruct Hi as [Hi|[Hi|[]]]; auto; injection Hi as _ -> ->; auto. }
  - destruct (H _ _ _ _ _ Hp) as [Hx|Hx]; [auto|]. right. destruct (0 <? d); prj; exact Hx.
  - rewrite (Hk _ _ _ eq_refl) in *. destruct (Nat.ltb_spec 0 d); prj; [right; eexists; split; [reflexivity|lia]|left; split; [lia|reflexivity]].
Qed.
Lemma dated_filter f s s' : pending (trace s') = filter f (pending (trace s)) -> now s <= now s' -> dated s -> dated s'.
Proof.
  intros E Hn H i c a d x Hi. rewrite E in Hi. apply filter_In in Hi. destruct (H _ _ _ _ _ (proj1 Hi)) as [Hx|(n & -> & Hx)]; [auto|]. right. exists n. split; [reflexivity|lia].
Qed.
Lemma dated_same s s' : trace s' = trace s -> now s <= now s' -> dated s -> dated s'.
Proof. intros E Hn H i c a d x Hi. rewrite E in Hi. destruct (H _ _ _ _ _ Hi) as [Hx|(n & -> & Hx)]; [auto|]. right. exists n. split; [reflexivity|lia]. Qed.
Lemma dated_exec s c : dated s -> dated (fst (exec s c)).
Proof.
  intros H. destruct c; cbn [exec fst].
  - apply dated_schedule; [discriminate|assumption].
  - unfold cancel_all. destruct (look (Plain a) (scheduled s)); (eapply dated_filter; [prj; rewrite pending_snoc; reflexivity|prj; lia|assumption]).
  - unfold cancel_id. eapply dated_filter; [prj; rewrite pending_snoc; reflexivity|prj; lia|assumption].
  - unfold start. destruct (mem a (reps s)); [assumption|]. apply dated_schedule; [intros ? ? ? [= _ _ ->]; reflexivity|]. exact H.
  - unfold stop. destruct (mem a (reps s)); exact H.
  - apply (dated_same s); [reflexivity|prj; lia|assumption].
  - assumption.
Qed.
Lemma dated_exec_all cs : forall s, dated s -> dated (fst (exec_all s cs)).
Proof.
  induction cs as [|c cs IH]; intros s H; cbn [exec_all fst]; [assumption|]. pose proof (dated_exec s c H) as H1. destruct (exec s c) as [s1 e]. cbn [fst] in *.
  destruct e; [assumption|]. now apply IH.
Qed.
Lemma dated_loop prog n : forall s, dated s -> dated (fst (loop prog n s)).
Proof.
  induction n as [|n IH]; intros s H; cbn [loop]; destruct (queue s) as [|[k i] q]; try exact H. cbn [scheduled with_queue].
  destruct (look k (scheduled s)) as [l|]; [|exact H]. destruct (mem i l); [|apply IH; exact H]. cbn [now with_queue].
  set (s1 := note _ _). assert (dated s1) as H1. { unfold s1. eapply dated_filter; [prj; rewrite pending_snoc; reflexivity|prj; lia|exact H]. }
  clearbody s1. assert (dated (fst (run_key prog k s1))) as H2.
  { destruct k as [a|c a d]; cbn [run_key]; [now apply dated_exec_all|]. destruct (mem a (reps s1)); [|exact H1]. pose proof (dated_exec_all (prog a) s1 H1) as H2.
    destruct (exec_all s1 (prog a)) as [s2 e]. cbn [fst] in *. destruct e; cbn [fst]; [exact H2|]. apply dated_schedule; [intros ? ? ? [= _ _ ->]; reflexivity|exact H2]. }
  destruct (run_key prog k s1) as [s2 e]. cbn [fst] in *. destruct e; [exact H2|]. now apply IH.
Qed.
Lemma dated_service prog n s : dated s -> dated (fst (service prog n s)).
Proof.
  intros H. unfold service. apply dated_loop. unfold take_due. destruct (stash s); [exact H|]. destruct (match next_check s with Some c => c <? now s | None => false end); exact H.
Qed.
Lemma dated_run prog os : forall s, dated s -> dated (run prog s os).
Proof.
  induction os as [|o os IH]; intros s H; [assumption|]. cbn. apply IH. destruct o; cbn [step]; [now apply dated_exec|now apply dated_service].
Qed.
