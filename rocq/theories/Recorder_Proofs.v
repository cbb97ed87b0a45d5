(** Proofs about recording and playing back (C88). *)
From Coq Require Import List Arith ZArith Bool Lia.
From Verif Require Import Recorder_Model Recorder_Spec.
Import ListNotations.

(** *** the store *)
Lemma get_put {V} k (v : V) s k' : increasing s -> get k' (put k v s) = if k' =? k then Some v else get k' s.
Proof.
  induction s as [|(k0, v0) s IH]; simpl; intros I; [reflexivity|]. destruct I as (I1 & I2).
  destruct (Nat.ltb_spec k k0); [simpl; reflexivity|].
  destruct (Nat.eqb_spec k k0) as [->|N]; simpl; [destruct (k' =? k0); reflexivity|].
  rewrite IH by exact I2. destruct (Nat.eqb_spec k' k0) as [->|N']; [|reflexivity]. destruct (Nat.eqb_spec k0 k); congruence.
Qed.
Lemma put_in {V} k (v : V) s e : In e (put k v s) -> fst e = k \/ In e s.
Proof.
  induction s as [|(k0, v0) s IH]; simpl; [intros [<-|[]]; auto|]. destruct (k <? k0); [intros [<-|I]; auto|].
  destruct (k =? k0); [intros [<-|I]; auto|]. intros [<-|I]; [auto|]. destruct (IH I); auto.
Qed.
Lemma put_increasing {V} k (v : V) s : increasing s -> increasing (put k v s).
Proof.
  induction s as [|(k0, v0) s IH]; simpl; [intros _; split; [intros e []|exact I]|]. intros (I1 & I2).
  destruct (Nat.ltb_spec k k0).
  - simpl. split; [|split; assumption]. intros e [<-|E]; [exact H|]. specialize (I1 e E). simpl in *. lia.
  - destruct (Nat.eqb_spec k k0) as [->|N]; [simpl; split; assumption|]. simpl. split; [|apply IH, I2].
    intros e E. apply put_in in E as [E|E]; [lia|apply I1, E].
Qed.
Lemma get_none {V} k (s : store V) : get k s = None <-> ~ In k (map fst s).
Proof. induction s as [|(k0, v0) s IH]; simpl; [tauto|]. destruct (Nat.eqb_spec k k0) as [->|N]; [split; [discriminate|tauto]|]. rewrite IH. intuition congruence. Qed.
Lemma get_some_in {V} k (s : store V) v : get k s = Some v -> In (k, v) s.
Proof. induction s as [|(k0, v0) s IH]; simpl; [discriminate|]. destruct (Nat.eqb_spec k k0) as [->|N]; [intros E; injection E as ->; auto|auto]. Qed.
Lemma get_in_increasing {V} k v (s : store V) : increasing s -> In (k, v) s -> get k s = Some v.
Proof.
  induction s as [|(k0, v0) s IH]; simpl; intros I J; [destruct J|]. destruct I as (I1 & I2), J as [J|J].
  - injection J as -> ->. rewrite Nat.eqb_refl. reflexivity.
  - specialize (I1 _ J). simpl in I1. destruct (Nat.eqb_spec k k0); [lia|auto].
Qed.

Section Json.
Variable dumps : list val -> bytes.
Variable loads : bytes -> option (list val).
Hypothesis J : json_ok dumps loads.

Definition holds (s : store bytes) (evs : list (nat * val)) : Prop :=
  increasing s /\ forall k, get k s = match at_time k evs with [] => None | l => Some (dumps l) end.
Lemma at_time_snoc k evs e : at_time k (evs ++ [e]) = at_time k evs ++ (if fst e =? k then [snd e] else []).
Proof. unfold at_time. rewrite filter_app, map_app. simpl. destruct (fst e =? k); reflexivity. Qed.
Lemma add_holds s evs k v : holds s evs -> exists s', add_to_store dumps loads s k v = Some s' /\ holds s' (evs ++ [(k, v)]).
Proof.
  intros (I & H). unfold add_to_store. rewrite (H k). destruct J as (J1 & _).
  assert (X : forall l, at_time k evs = l -> holds (put k (dumps (l ++ [v])) s) (evs ++ [(k, v)])).
  { intros l E. split; [apply put_increasing, I|]. intros k'. rewrite get_put by exact I. rewrite at_time_snoc. simpl.
    destruct (Nat.eqb_spec k' k) as [->|N].
    - rewrite Nat.eqb_refl, E. destruct (l ++ [v]) eqn:F; [destruct l; discriminate|reflexivity].
    - destruct (Nat.eqb_spec k k'); [congruence|]. rewrite app_nil_r. apply H. }
  destruct (at_time k evs) as [|a l] eqn:E.
  - eexists. split; [reflexivity|]. apply (X [] eq_refl).
  - rewrite J1. eexists. split; [reflexivity|]. apply (X (a :: l) eq_refl).
Qed.
Lemma record_app s a b : record dumps loads s (a ++ b) = match record dumps loads s a with Some s' => record dumps loads s' b | None => None end.
Proof. revert s. induction a as [|(k, v) a IH]; intros s; [reflexivity|]. simpl. destruct (add_to_store dumps loads s k v); [apply IH|reflexivity]. Qed.
Lemma record_holds evs : exists s, record dumps loads [] evs = Some s /\ holds s evs.
Proof.
  induction evs as [|(k, v) evs (s & E & H)] using rev_ind; [exists []; split; [reflexivity|]; split; [exact I|reflexivity]|].
  rewrite record_app, E. destruct (add_holds s evs k v H) as (s' & E' & H'). exists s'. simpl. rewrite E'. split; [reflexivity|exact H'].
Qed.

(** the keys, and an order-preserving walk *)
Lemma holds_keys s evs k : holds s evs -> (In k (map fst s) <-> In k (map fst evs)).
Proof.
  intros (I & H). destruct (get k s) as [b0|] eqn:G.
  - split; intros _; [|apply get_some_in in G; apply (in_map fst) in G; exact G].
    rewrite H in G. destruct (at_time k evs) as [|a l] eqn:E; [discriminate|].
    assert (Q : In a (at_time k evs)) by (rewrite E; left; reflexivity). unfold at_time in Q. apply in_map_iff in Q as (e & _ & Q).
    apply filter_In in Q as (Q & F). apply Nat.eqb_eq in F. rewrite <- F. apply in_map, Q.
  - pose proof (proj1 (get_none _ _) G) as N. split; [contradiction|]. intros Q. exfalso. rewrite H in G.
    apply in_map_iff in Q as (e & F & Q). assert (W : In (snd e) (at_time k evs)).
    { unfold at_time. apply in_map, filter_In. split; [exact Q|apply Nat.eqb_eq, F]. }
    destruct (at_time k evs); [destruct W|discriminate].
Qed.
(* walking over increasing keys that contain all times gives back events that are in order *)
Fixpoint inc (ks : list nat) : Prop := match ks with [] => True | k :: r => (forall k', In k' r -> k < k') /\ inc r end.
Lemma at_time_none k evs : (forall e, In e evs -> fst e <> k) -> at_time k evs = [].
Proof.
  intros H. unfold at_time. induction evs as [|e evs IH]; [reflexivity|]. simpl. destruct (Nat.eqb_spec (fst e) k) as [E|N].
  - exfalso. apply (H e); [left; reflexivity|exact E].
  - apply IH. intros e' I'. apply H. right. exact I'.
Qed.
Lemma walk_after {A} (g : list val -> list A) ks k e evs : (forall k', In k' ks -> k < k') -> fst e = k ->
  flat_map (fun k' => g (at_time k' (e :: evs))) ks = flat_map (fun k' => g (at_time k' evs)) ks.
Proof.
  intros H E. induction ks as [|k' ks IH]; [reflexivity|]. cbn [flat_map]. rewrite IH by (intros x I; apply H; right; exact I).
  f_equal. f_equal. unfold at_time. cbn [filter]. specialize (H k' (or_introl eq_refl)). destruct (Nat.eqb_spec (fst e) k'); [lia|reflexivity].
Qed.
Lemma walk {A} (g : val -> list A) ks : forall evs, inc ks -> in_order evs -> (forall e, In e evs -> In (fst e) ks) ->
  flat_map (fun k => flat_map g (at_time k evs)) ks = flat_map (fun e => g (snd e)) evs.
Proof.
  induction ks as [|k ks IHk]; intros evs I O H.
  - destruct evs as [|e evs]; [reflexivity|]. destruct (H e (or_introl eq_refl)).
  - destruct I as (I1 & I2). induction evs as [|e evs IHe].
    + cbn [flat_map]. rewrite (IHk [] I2 O) by (intros e []). reflexivity.
    + destruct O as (O1 & O2). destruct (H e (or_introl eq_refl)) as [E|E].
      * cbn [flat_map]. rewrite (walk_after (flat_map g) ks k e evs I1 (eq_sym E)).
        assert (F : at_time k (e :: evs) = snd e :: at_time k evs) by (unfold at_time; cbn [filter]; rewrite (proj2 (Nat.eqb_eq _ _) (eq_sym E)); reflexivity).
        rewrite F. cbn [flat_map]. rewrite <- app_assoc. f_equal. apply IHe; [exact O2|]. intros e' I'. apply H. right. exact I'.
      * assert (L : forall e', In e' (e :: evs) -> k < fst e').
        { intros e' [<-|I']; [apply I1, E|]. specialize (O1 e' I'). specialize (I1 _ E). lia. }
        cbn [flat_map]. rewrite at_time_none by (intros e' I'; specialize (L e' I'); lia). cbn [flat_map app].
        apply (IHk (e :: evs)); [exact I2|split; assumption|]. intros e' I'. destruct (H e' I') as [Q|Q]; [|exact Q]. specialize (L e' I'). lia.
Qed.
Lemma increasing_inc {V} (s : store V) : increasing s -> inc (map fst s).
Proof. induction s as [|e s IH]; simpl; [auto|]. intros (A & B). split; [|auto]. intros k I. apply in_map_iff in I as (e' & <- & I). apply A, I. Qed.

(** *** playing *)
Section Play.
Context {P : Type}.
Variable parse : bytes -> option P.
Definition parsed (s : store bytes) : list (nat * P) := flat_map (fun e => match parse (snd e) with Some v => [(fst e, v)] | None => [] end) s.
Definition wf (p : player) : Prop := (held p <> None -> last p <> None) /\ (playing p = false -> left p = []).
Lemma next_ok p now p' g : wf p -> (forall e, In e (left p) -> parse (snd e) <> None) -> get_next parse p now = (p', g) ->
  wf p' /\ parsed (left p) = delivered [(now, g)] ++ parsed (left p') /\ (forall e, In e (left p') -> In e (left p)) /\ g <> Raised /\
  match g with
  | Got k v => last p' = Some (now, k) /\ (forall l, last p = Some l -> (Z.of_nat k - Z.of_nat (snd l) <= now - fst l)%Z)
  | _ => last p' = last p
  end.
Proof.
  intros (W1 & W2) T. unfold get_next, left in *. destruct p as [rs hd la pl]. cbn [held rest last playing] in *. destruct hd as [(k, b)|].
  - destruct la as [l|]; [|destruct W1; [discriminate|reflexivity]]. unfold enough. destruct (Z.leb_spec (Z.of_nat k - Z.of_nat (snd l)) (now - fst l)) as [L|L].
    + unfold deliver. intros E. injection E as <- <-. cbn [held rest last playing app]. specialize (T (k, b) (or_introl eq_refl)) as T0. cbn [snd] in T0.
      destruct (parse b) as [v|] eqn:PB; [|congruence]. split; [split; [discriminate|]; intros Q; specialize (W2 Q); discriminate|].
      split; [unfold parsed; cbn [flat_map app snd fst]; rewrite PB; reflexivity|]. split; [intros e I; right; exact I|]. split; [discriminate|].
      split; [reflexivity|]. intros l' E. injection E as <-. exact L.
    + intros E. injection E as <- <-. cbn [held rest last playing]. split; [split; [intros _; discriminate|exact W2]|].
      split; [reflexivity|]. split; [auto|]. split; [discriminate|reflexivity].
  - cbn [app] in *. destruct rs as [|(k, b) r].
    + intros E. injection E as <- <-. cbn [held rest last playing app]. split; [split; [intros Q; destruct Q; reflexivity|reflexivity]|].
      split; [reflexivity|]. split; [auto|]. split; [discriminate|reflexivity].
    + specialize (T (k, b) (or_introl eq_refl)) as T0. cbn [snd] in T0.
      assert (X : forall l, la = l -> (forall l', l = Some l' -> (Z.of_nat k - Z.of_nat (snd l') <= now - fst l')%Z) ->
         deliver parse (Player ((k, b) :: r) None la pl) now k b r = (p', g) ->
         wf p' /\ parsed ((k, b) :: r) = delivered [(now, g)] ++ parsed (match held p' with Some e => [e] | None => [] end ++ rest p') /\
         (forall e, In e (match held p' with Some e => [e] | None => [] end ++ rest p') -> In e ((k, b) :: r)) /\ g <> Raised /\
         match g with Got k v => last p' = Some (now, k) /\ (forall l, la = Some l -> (Z.of_nat k - Z.of_nat (snd l) <= now - fst l)%Z) | _ => last p' = la end).
      { intros l -> HL E. unfold deliver in E. injection E as <- <-. cbn [held rest last playing app]. destruct (parse b) as [v|] eqn:PB; [|congruence].
        split; [split; [intros Q; destruct Q; reflexivity|]; cbn [playing]; intros Q; specialize (W2 Q); discriminate|].
        split; [unfold parsed; cbn [flat_map app snd fst]; rewrite PB; reflexivity|]. split; [intros e I; right; exact I|]. split; [discriminate|].
        split; [reflexivity|exact HL]. }
      destruct la as [l|]; [|apply (X None eq_refl); intros l' Q; discriminate].
      unfold enough. destruct (Z.leb_spec (Z.of_nat k - Z.of_nat (snd l)) (now - fst l)) as [L|L].
      * apply (X (Some l) eq_refl). intros l' Q. injection Q as <-. exact L.
      * intros E. injection E as <- <-. cbn [held rest last playing app]. split; [split; [intros _; discriminate|]; cbn [playing]; intros Q; specialize (W2 Q); discriminate|].
        split; [reflexivity|]. split; [auto|]. split; [discriminate|reflexivity].
Qed.
Lemma delivered_cons (x : Z * got (P := P)) out : delivered (x :: out) = delivered [x] ++ delivered out.
Proof. unfold delivered. cbn [flat_map]. rewrite app_nil_r. reflexivity. Qed.
Lemma play_ok nows : forall p p' out, wf p -> (forall e, In e (left p) -> parse (snd e) <> None) -> play parse p nows = (p', out) ->
  wf p' /\ parsed (left p) = delivered out ++ parsed (left p') /\ (forall e, In e (left p') -> In e (left p)) /\ (forall t, ~ In (t, Raised) out) /\
  map fst out = nows.
Proof.
  induction nows as [|t nows IH]; intros p p' out W T; simpl; [intros E; injection E as <- <-; repeat split; try apply W; auto|].
  destruct (get_next parse p t) as (p1, g) eqn:G. destruct (play parse p1 nows) as (p2, gs) eqn:Q. intros E. injection E as <- <-.
  destruct (next_ok p t p1 g W T G) as (W1 & A & B & C & _).
  destruct (IH p1 p2 gs W1) as (W2 & A' & B' & C' & D'); [intros e I; apply T, B, I|exact Q|].
  split; [exact W2|]. split; [rewrite delivered_cons, A, A', app_assoc; reflexivity|]. split; [auto|].
  split; [intros t' [E|I]; [injection E as <- F; auto|apply (C' t'), I]|]. cbn [map fst]. rewrite D'. reflexivity.
Qed.
(** spacing: any entry delivered comes at least as long after the last one as it was recorded after it *)
Lemma play_spaced_from nows : forall p p' out l, wf p -> (forall e, In e (left p) -> parse (snd e) <> None) -> play parse p nows = (p', out) ->
  last p = Some l -> forall o1 t k v o2, out = o1 ++ (t, Got k v) :: o2 -> (Z.of_nat k - Z.of_nat (snd l) <= t - fst l)%Z.
Proof.
  induction nows as [|t0 nows IH]; intros p p' out l W T; simpl; [intros E; injection E as <- <-; intros _ o1 t k v o2 F; destruct o1; discriminate|].
  destruct (get_next parse p t0) as (p1, g) eqn:G. destruct (play parse p1 nows) as (p2, gs) eqn:Q. intros E L. injection E as <- <-.
  destruct (next_ok p t0 p1 g W T G) as (W1 & _ & B & C & D). intros o1 t k v o2 F.
  assert (T1 : forall e, In e (left p1) -> parse (snd e) <> None) by (intros e I; apply T, B, I).
  destruct o1 as [|x o1]; cbn [app] in F; [injection F as -> -> F2|injection F as F1 F2].
  - destruct D as (_ & D). apply (D l L).
  - destruct g as [|k1 v1|]; [|destruct D as (D1 & D2)|congruence].
    + rewrite L in D. apply (IH p1 p2 gs l W1 T1 Q D o1 t k v o2 F2).
    + pose proof (IH p1 p2 gs (t0, k1) W1 T1 Q D1 o1 t k v o2 F2) as H. specialize (D2 l L). cbn [fst snd] in H. lia.
Qed.
Lemma play_spaced nows : forall p p' out, wf p -> (forall e, In e (left p) -> parse (snd e) <> None) -> play parse p nows = (p', out) ->
  forall o1 t1 k1 v1 o2 t2 k2 v2 o3, out = o1 ++ (t1, Got k1 v1) :: o2 ++ (t2, Got k2 v2) :: o3 -> (Z.of_nat k2 - Z.of_nat k1 <= t2 - t1)%Z.
Proof.
  induction nows as [|t0 nows IH]; intros p p' out W T; simpl; [intros E; injection E as <- <-; intros o1 ? ? ? ? ? ? ? ? F; destruct o1; discriminate|].
  destruct (get_next parse p t0) as (p1, g) eqn:G. destruct (play parse p1 nows) as (p2, gs) eqn:Q. intros E. injection E as <- <-.
  destruct (next_ok p t0 p1 g W T G) as (W1 & _ & B & C & D). intros o1 t1 k1 v1 o2 t2 k2 v2 o3 F.
  assert (T1 : forall e, In e (left p1) -> parse (snd e) <> None) by (intros e I; apply T, B, I).
  destruct o1 as [|x o1]; cbn [app] in F; [injection F as -> -> F2|injection F as F1 F2].
  - destruct D as (D1 & _). apply (play_spaced_from nows p1 p2 gs (t1, k1) W1 T1 Q D1 o2 t2 k2 v2 o3 F2).
  - apply (IH p1 p2 gs W1 T1 Q o1 t1 k1 v1 o2 t2 k2 v2 o3 F2).
Qed.
End Play.

(** *** bytes of the combined recorder *)
Definition ascii (b : bytes) : Prop := forall x, In x b -> x < 128.
Lemma split_plain b : (forall x, In x b -> x <> 195) -> forall r, split_sep (b ++ separator ++ r) = b :: split_sep r.
Proof.
  induction b as [|x b IH]; intros H r.
  - reflexivity.
  - assert (X : x <> 195) by (apply H; left; reflexivity).
    assert (Q : split_sep (b ++ separator ++ r) = b :: split_sep r) by (apply IH; intros y I; apply H; right; exact I).
    change ((x :: b) ++ separator ++ r) with (x :: (b ++ separator ++ r)). cbn [split_sep].
    destruct (b ++ separator ++ r) as [|y z] eqn:E; [destruct b; discriminate|].
    destruct (Nat.eqb_spec x 195); [contradiction|]. cbn [andb]. rewrite Q. reflexivity.
Qed.
Lemma split_none b : (forall x, In x b -> x <> 195) -> split_sep b = [b].
Proof.
  induction b as [|x b IH]; intros H; [reflexivity|]. cbn [split_sep]. destruct b as [|y b']; [reflexivity|].
  destruct (Nat.eqb_spec x 195); [exfalso; apply (H x); [left; reflexivity|assumption]|]. cbn [andb].
  rewrite IH by (intros z I; apply H; right; exact I). reflexivity.
Qed.
Lemma lstrip_ascii cs b : ascii b -> (forall x, In x cs -> 128 <= x) -> lstrip cs b = b.
Proof.
  intros A C. destruct b as [|x b]; [reflexivity|]. cbn [lstrip]. destruct (existsb (Nat.eqb x) cs) eqn:E; [|reflexivity].
  exfalso. apply existsb_exists in E as (y & I & E). apply Nat.eqb_eq in E. subst y. specialize (C x I). specialize (A x (or_introl eq_refl)). lia.
Qed.
Lemma ascii_utf8 b : ascii b -> not_utf8 b = false.
Proof.
  induction b as [|x b IH]; intros A; [reflexivity|]. cbn [not_utf8]. destruct b as [|y b']; [reflexivity|].
  rewrite IH by (intros z I; apply A; right; exact I). specialize (A y (or_intror (or_introl eq_refl))).
  destruct (Nat.leb_spec 128 y); [lia|]. rewrite andb_false_r. reflexivity.
Qed.
Lemma part_back l : parse_part loads (dumps l) = Some l.
Proof.
  destruct J as (J1 & J2 & J3). unfold parse_part, get_parsed. destruct (dumps l) eqn:E; [destruct (J2 l E)|]. rewrite <- E.
  rewrite ascii_utf8 by (intros x I; apply (J3 l x I)). apply J1.
Qed.
Lemma n_high x : In x n_prefix -> 128 <= x.
Proof. unfold n_prefix. intros [<-|[<-|[]]]; repeat constructor. Qed.
Lemma c_high x : In x c_prefix -> 128 <= x.
Proof. unfold c_prefix. intros [<-|[<-|[]]]; repeat constructor. Qed.
Definition n_part (l : list val) : bytes := match l with [] => [] | _ => dumps l end.
Definition c_part (l : list val) : bytes := match l with [] => [] | _ => c_prefix ++ dumps l end.
Lemma n_part_ascii l : ascii (n_part l).
Proof. destruct J as (_ & _ & J3). unfold n_part. destruct l; [intros x []|intros x I; apply (J3 _ x I)]. Qed.
Lemma both_back nl cl : get_parsed_both loads (n_prefix ++ n_part nl ++ separator ++ c_part cl) = Some (nl, cl).
Proof.
  destruct J as (J1 & J2 & J3). unfold get_parsed_both.
  rewrite app_assoc, split_plain.
  2:{ intros x I. apply in_app_iff in I as [I|I]; [|apply n_part_ascii in I; lia]. unfold n_prefix in I. destruct I as [<-|[<-|[]]]; discriminate. }
  rewrite split_none.
  2:{ unfold c_part. destruct cl; [intros x []|]. intros x I. apply in_app_iff in I as [I|I]; [unfold c_prefix in I; destruct I as [<-|[<-|[]]]; discriminate|].
      apply J3 in I. lia. }
  assert (A : lstrip n_prefix (n_prefix ++ n_part nl) = n_part nl) by (cbn; apply (lstrip_ascii n_prefix); [apply n_part_ascii|apply n_high]).
  assert (B : lstrip c_prefix (c_part cl) = n_part cl).
  { unfold c_part, n_part. destruct cl as [|c cl]; [reflexivity|]. cbn. apply (lstrip_ascii c_prefix); [intros x I; apply (J3 _ x I)|apply c_high]. }
  rewrite A, B. unfold n_part. destruct nl, cl; rewrite ?part_back; reflexivity.
Qed.

(** combining *)
Lemma combine_n_get n : forall s k, increasing s -> increasing n ->
  increasing (combine_n s n) /\ get k (combine_n s n) = match get k n with Some v => Some (n_prefix ++ v ++ separator) | None => get k s end.
Proof.
  induction n as [|(k0, v0) n IH]; intros s k I N; [split; [exact I|reflexivity]|]. destruct N as (N1 & N2).
  unfold combine_n. cbn [fold_left fst snd]. fold (combine_n (put k0 (n_prefix ++ v0 ++ separator) s) n).
  destruct (IH (put k0 (n_prefix ++ v0 ++ separator) s) k (put_increasing _ _ _ I) N2) as (A & B). split; [exact A|]. rewrite B. cbn [get].
  rewrite get_put by exact I. destruct (Nat.eqb_spec k k0) as [->|Ne]; [|reflexivity].
  replace (get k0 n) with (@None bytes); [reflexivity|]. symmetry. apply get_none. intros Q. apply in_map_iff in Q as (e & F & Q). specialize (N1 e Q). simpl in N1. lia.
Qed.
Lemma combine_c_get c : forall s k, increasing s -> increasing c ->
  increasing (combine_c s c) /\ get k (combine_c s c) =
    match get k c with Some v => Some (match get k s with Some b => b | None => n_prefix ++ separator end ++ c_prefix ++ v) | None => get k s end.
Proof.
  induction c as [|(k0, v0) c IH]; intros s k I N; [split; [exact I|reflexivity]|]. destruct N as (N1 & N2).
  unfold combine_c. cbn [fold_left fst snd].
  set (b0 := match get k0 s with Some b => b | None => n_prefix ++ separator end ++ c_prefix ++ v0). fold (combine_c (put k0 b0 s) c).
  destruct (IH (put k0 b0 s) k (put_increasing _ _ _ I) N2) as (A & B). split; [exact A|]. rewrite B. cbn [get]. rewrite get_put by exact I.
  destruct (Nat.eqb_spec k k0) as [->|Ne]; [|reflexivity].
  replace (get k0 c) with (@None bytes); [reflexivity|]. symmetry. apply get_none. intros Q. apply in_map_iff in Q as (e & F & Q). specialize (N1 e Q). simpl in N1. lia.
Qed.
Lemma combine_get n c nevs cevs k : holds n nevs -> holds c cevs ->
  increasing (combine [] n c) /\
  get k (combine [] n c) = match at_time k nevs, at_time k cevs with
                           | [], [] => None
                           | nl, cl => Some (n_prefix ++ n_part nl ++ separator ++ c_part cl)
                           end.
Proof.
  intros (NI & NH) (CI & CH). unfold combine. destruct (combine_n_get n [] k I NI) as (A & B).
  destruct (combine_c_get c (combine_n [] n) k A CI) as (C & D). split; [exact C|]. rewrite D, B, NH, CH. cbn [get].
  destruct (at_time k nevs) as [|nv nl], (at_time k cevs) as [|cv cl]; cbn [n_part c_part]; rewrite <- ?app_assoc, ?app_nil_r; reflexivity.
Qed.
Lemma combine_parsed n c nevs cevs e : holds n nevs -> holds c cevs -> In e (combine [] n c) ->
  get_parsed_both loads (snd e) = Some (at_time (fst e) nevs, at_time (fst e) cevs).
Proof.
  intros N C I. destruct e as (k, b). destruct (combine_get n c nevs cevs k N C) as (A & B). apply (get_in_increasing k b _ A) in I. rewrite I in B. cbn [fst snd].
  destruct (at_time k nevs) as [|nv nl] eqn:E1, (at_time k cevs) as [|cv cl] eqn:E2; [discriminate| | |]; injection B as ->;
    [exact (both_back [] (cv :: cl))|exact (both_back (nv :: nl) [])|exact (both_back (nv :: nl) (cv :: cl))].
Qed.
Lemma combine_keys n c nevs cevs k : holds n nevs -> holds c cevs -> (In k (map fst (combine [] n c)) <-> In k (map fst nevs) \/ In k (map fst cevs)).
Proof.
  intros N C. destruct (combine_get n c nevs cevs k N C) as (A & B).
  rewrite <- (holds_keys n nevs k N), <- (holds_keys c cevs k C). destruct N as (_ & NH), C as (_ & CH).
  assert (X : forall V (s : store V), In k (map fst s) <-> get k s <> None).
  { intros V s. rewrite get_none. destruct (in_dec Nat.eq_dec k (map fst s)); tauto. }
  rewrite !X, B, NH, CH. destruct (at_time k nevs), (at_time k cevs); intuition congruence.
Qed.

(** combining again on top *)
Lemma utf8_bad a b r : a < 128 -> 128 <= b -> b < 192 -> forall p, not_utf8 (p ++ a :: b :: r) = true.
Proof.
  intros A B C. induction p as [|x p IH].
  - cbn [app not_utf8]. rewrite (proj2 (Nat.ltb_lt _ _) A), (proj2 (Nat.leb_le _ _) B), (proj2 (Nat.ltb_lt _ _) C). reflexivity.
  - cbn [app not_utf8]. destruct (p ++ a :: b :: r) eqn:E; [destruct p; discriminate|]. rewrite IH. apply orb_true_r.
Qed.
Lemma twice_bad v w : v <> [] -> ascii v -> ascii w ->
  get_parsed_both loads ((n_prefix ++ separator ++ c_prefix ++ v) ++ c_prefix ++ w) = None.
Proof.
  intros NE A B. unfold get_parsed_both. rewrite <- !app_assoc. rewrite split_plain by (intros x [<-|[<-|[]]]; discriminate).
  rewrite split_none.
  2:{ intros x I. repeat (apply in_app_iff in I as [I|I]); try (unfold c_prefix in I; destruct I as [<-|[<-|[]]]; discriminate); [apply A in I|apply B in I]; lia. }
  assert (E : lstrip c_prefix (c_prefix ++ v ++ c_prefix ++ w) = v ++ c_prefix ++ w).
  { cbn. destruct v as [|x v]; [contradiction|]. cbn [app lstrip]. specialize (A x (or_introl eq_refl)).
    destruct (existsb (Nat.eqb x) c_prefix) eqn:Q; [|reflexivity]. exfalso. apply existsb_exists in Q as (y & I & Q). apply Nat.eqb_eq in Q. subst y. apply c_high in I. lia. }
  rewrite E. unfold parse_part at 2. destruct (v ++ c_prefix ++ w) as [|h t] eqn:F; [destruct v; discriminate|]. rewrite <- F. unfold get_parsed.
  destruct (exists_last NE) as (v' & a & ->). unfold c_prefix. rewrite <- app_assoc. cbn [app].
  rewrite utf8_bad; [|apply A, in_app_iff; right; left; reflexivity|repeat constructor|repeat constructor].
  destruct (parse_part loads (lstrip n_prefix n_prefix)); reflexivity.
Qed.
End Json.

(** *** start times *)
Lemma last_run_snoc l r : last_run (l ++ [r]) = Some r.
Proof. unfold last_run. rewrite app_length. cbn [length]. replace (length l + 1 - 1) with (length l) by lia. rewrite nth_error_app2 by lia. rewrite Nat.sub_diag. reflexivity. Qed.
Lemma live_app a : forall f b f', live f a = (f', true) -> live f (a ++ b) = live f' b.
Proof.
  induction a as [|[t|t|] a IH]; intros f b f'; simpl; [intros E; injection E as <-; reflexivity| | |apply IH].
  - destruct (add_start_time f t); [apply IH|discriminate].
  - destruct (add_stop_time f t); [apply IH|discriminate].
Qed.
Lemma start_open f t f' : add_start_time f t = Some f' -> exists l, f' = Some (l ++ [[t]]).
Proof.
  unfold add_start_time. destruct f as [l|]; [|intros E; injection E as <-; exists []; reflexivity].
  destruct (last_run l) as [r|]; [|discriminate]. destruct (length r =? 2); [|discriminate]. intros E. injection E as <-. exists l. reflexivity.
Qed.
