(** Requests are written once (C60): the invariant, for any PrePrepares. *)
From Coq Require Import List Arith Bool Lia.
From Verif Require Import Exec_Model Exec_Spec Exec_Proofs.
Import ListNotations.

Definition pay (x : txn) : nat := r_pay (x_req x).
Definition ful (x : txn) : nat := r_full (x_req x).
Definition pays (l : list txn) : list nat := map pay l.

Lemma nodup_app_l : forall {A} (a b : list A), NoDup (a ++ b) -> NoDup a.
Proof. intros A a b. induction a as [|x a IH]; cbn; intros N; [constructor|]. inversion N as [|y l NI ND]; subst. constructor; [intros X; apply NI, in_or_app; left; exact X | exact (IH ND)]. Qed.

Lemma nodup_app_r : forall {A} (a b : list A), NoDup (a ++ b) -> NoDup b.
Proof. intros A a b. induction a as [|x a IH]; cbn; intros N; [exact N|]. inversion N as [|y l NI ND]; subst. exact (IH ND). Qed.

Lemma add_batch_spec : forall lid xs db full first db' full', NoDup (pays xs) -> add_batch db full lid first xs = (db', full') ->
  (forall j x, nth_error xs j = Some x -> get (pay x) db' = Some (lid, first + j)) /\
  (forall p, ~ In p (pays xs) -> get p db' = get p db) /\
  (forall x, In x xs -> get (ful x) full' <> None) /\ (forall f, get f full <> None -> get f full' <> None) /\
  (forall f, get f full' <> None -> get f full <> None \/ exists x, In x xs /\ ful x = f).
Proof.
  intros lid. induction xs as [|x xs IH]; intros db full first db' full' ND E; cbn in E.
  - injection E as <- <-. split; [intros [|j] y Y; discriminate|]. split; [auto|]. split; [intros y []|]. auto.
  - cbn in ND. inversion ND as [|y l NI ND']; subst. destruct (IH _ _ _ _ _ ND' E) as (A & B & C & D & F).
    fold (pay x) in *. fold (ful x) in *. split; [|split; [|split; [|split]]].
    + intros [|j] y Y; cbn in Y.
      * injection Y as <-. rewrite (B (pay x) NI). cbn. rewrite Nat.eqb_refl, Nat.add_0_r. reflexivity.
      * rewrite (A j y Y). f_equal. f_equal. lia.
    + intros p NP. cbn in NP. rewrite (B p) by tauto. cbn. destruct (Nat.eqb_spec (pay x) p) as [X|_]; [tauto|reflexivity].
    + intros y [<-|Y]; [|exact (C y Y)]. apply D. cbn. rewrite Nat.eqb_refl. discriminate.
    + intros f Q. apply D. cbn. destruct (ful x =? f); [discriminate|exact Q].
    + intros f Q. destruct (F f Q) as [Q'|(y & Y & YF)]; [|right; exists y; split; [right; exact Y | exact YF]]. cbn in Q'.
      destruct (Nat.eqb_spec (ful x) f) as [X|_]; [right; exists x; split; [left; reflexivity | exact X] | left; exact Q'].
Qed.

Section Q.
  Variable lid_of id_of : nat -> nat.
  Variable ok : (nat -> list txn) -> req -> nat -> bool.
  Notation apply_req := (apply_req lid_of).
  Notation process_req := (process_req lid_of ok).
  Notation apply_reqs := (apply_reqs lid_of ok).
  Notation consume := (consume lid_of ok).
  Notation commit := (commit id_of).
  Notation step := (step lid_of id_of ok).
  Notation run := (run lid_of id_of ok).
  Notation numbered := (numbered id_of).
  Notation fit_once := (fit_once lid_of id_of).
  Notation fits_once := (fits_once lid_of id_of ok).

  Definition both (n : node) (k : nat) : list txn := l_com (n_l n k) ++ l_unc (n_l n k).
  Definition placed (n : node) : Prop :=
    (forall k x, In x (both n k) -> lid_of (pay x) = k /\ id_of (pay x) <> 0) /\ (forall k, NoDup (pays (both n k))).
  Definition indexed (n : node) : Prop :=
    (forall k i x, nth_error (l_com (n_l n k)) i = Some x -> get (pay x) (n_db n) = Some (k, S i) /\ get (ful x) (n_full n) <> None) /\
    (forall p k s, get p (n_db n) = Some (k, s) -> exists i x, s = S i /\ nth_error (l_com (n_l n k)) i = Some x /\ pay x = p) /\
    (forall f, get f (n_full n) <> None -> exists k x, In x (l_com (n_l n k)) /\ ful x = f).
  Definition InvO (n : node) : Prop := placed n /\ indexed n.

  Lemma InvO_init : InvO init.
  Proof.
    split; [split; [intros k x [] | intros k; constructor]|]. split; [intros k [|i] x X; discriminate|].
    split; [intros p k s X; discriminate | intros f X; exfalso; apply X; reflexivity].
  Qed.

  Lemma in_com_known : forall n k x, InvO n -> In x (l_com (n_l n k)) -> forall r, r_pay r = pay x -> is_known n r = true.
  Proof. intros n k x [_ (I & _)] X r E. destruct (In_nth_error _ _ X) as (i & N). destruct (I k i x N) as [G _]. unfold is_known. rewrite E, G. reflexivity. Qed.
  Lemma not_somewhere : forall n r, InvO n -> is_known n r = false -> is_pending lid_of n r = false -> ~ somewhere n (r_pay r).
  Proof.
    intros n r I K P (k & x & X & E). pose proof I as [[L _] _]. destruct (L k x X) as [LK _]. apply in_app_or in X. destruct X as [X|X].
    - rewrite (in_com_known n k x I X r) in K; [discriminate|]. symmetry. exact E.
    - unfold is_pending in P. unfold pay in LK. rewrite E in LK. rewrite LK in P.
      assert (Y : existsb (fun x => r_pay (x_req x) =? r_pay r) (l_unc (n_l n k)) = true). { apply existsb_exists. exists x. split; [exact X|]. apply Nat.eqb_eq. exact E. }
      congruence.
  Qed.

  Lemma both_apply : forall n r t k, both (apply_req n r t) k = if k =? lid_of (r_pay r) then both n k ++ [mkX r t] else both n k.
  Proof.
    intros n r t k. unfold both, Exec_Model.apply_req, upd; cbn. destruct (Nat.eqb_spec k (lid_of (r_pay r))) as [->|_]; [cbn; apply app_assoc | reflexivity].
  Qed.
  Lemma com_apply : forall n r t k, l_com (n_l (apply_req n r t) k) = l_com (n_l n k).
  Proof. intros n r t k. unfold Exec_Model.apply_req, upd; cbn. destruct (Nat.eqb_spec k (lid_of (r_pay r))) as [->|_]; reflexivity. Qed.
  Lemma somewhere_apply : forall n r t p, somewhere (apply_req n r t) p -> somewhere n p \/ p = r_pay r.
  Proof.
    intros n r t p (k & x & X & E). fold (both (apply_req n r t) k) in X. rewrite both_apply in X.
    destruct (k =? lid_of (r_pay r)); [apply in_app_or in X; destruct X as [X|[<-|[]]]|]; [left; exists k, x; auto | right; symmetry; exact E | left; exists k, x; auto].
  Qed.
  Lemma InvO_apply : forall n r t, InvO n -> ~ somewhere n (r_pay r) -> id_of (r_pay r) <> 0 -> InvO (apply_req n r t).
  Proof.
    intros n r t [[L ND] (I1 & I2 & I3)] NS NZ. split; [split|split; [|split]].
    - intros k x X. rewrite both_apply in X. destruct (Nat.eqb_spec k (lid_of (r_pay r))) as [EK|_]; [|exact (L k x X)].
      apply in_app_or in X. destruct X as [X|[<-|[]]]; [exact (L k x X)|]. split; [symmetry; exact EK | exact NZ].
    - intros k. rewrite both_apply. destruct (Nat.eqb_spec k (lid_of (r_pay r))) as [EK|_]; [|exact (ND k)].
      unfold pays. rewrite map_app. cbn. change (map pay (both n k)) with (pays (both n k)).
      apply (NoDup_Add (a := pay (mkX r t)) (l := pays (both n k))); [rewrite <- (app_nil_r (pays (both n k))) at 1; apply Add_app|].
      split; [exact (ND k)|]. intros X. apply in_map_iff in X. destruct X as (x & E & X). apply NS. exists k, x. split; [exact X | exact E].
    - intros k i x. rewrite com_apply. exact (I1 k i x).
    - intros p k s G. destruct (I2 p k s G) as (i & x & E). exists i, x. rewrite com_apply. exact E.
    - intros f G. destruct (I3 f G) as (k & x & E). exists k, x. rewrite com_apply. exact E.
  Qed.

  Lemma InvO_process : forall n r t m, InvO n -> id_of (r_pay r) <> 0 -> process_req n r t = RApplied m -> InvO m.
  Proof.
    intros n r t m I NZ P. destruct (process_applied lid_of ok _ _ _ _ P) as (-> & K & PE & _). apply InvO_apply; [exact I | exact (not_somewhere n r I K PE) | exact NZ].
  Qed.
  Lemma InvO_apply_reqs : forall rs n i t m inv s, InvO n -> numbered rs -> apply_reqs n i rs t = (m, inv, s) -> InvO m.
  Proof.
    induction rs as [|r rs IH]; intros n i t m inv s I N E; cbn [Exec_Model.apply_reqs] in E; [injection E as <- <- <-; exact I|].
    assert (N' : numbered rs) by (intros x X; apply N; right; exact X).
    destruct (process_req n r t) as [n'| |] eqn:P.
    - exact (IH _ _ _ _ _ _ (InvO_process _ _ _ _ I (N r (or_introl eq_refl)) P) N' E).
    - destruct (apply_reqs n (S i) rs t) as [[m0 inv0] s0] eqn:E0. injection E as <- <- <-. exact (IH _ _ _ _ _ _ I N' E0).
    - destruct (apply_reqs n (S i) rs t) as [[m0 inv0] s0] eqn:E0. injection E as <- <- <-. exact (IH _ _ _ _ _ _ I N' E0).
  Qed.
  Lemma InvO_consume : forall rs n i t m out inv, InvO n -> numbered rs -> consume n i rs t = (m, out, inv) -> InvO m.
  Proof.
    induction rs as [|r rs IH]; intros n i t m out inv I N E; cbn [Exec_Model.consume] in E; [injection E as <- <- <-; exact I|].
    assert (N' : numbered rs) by (intros x X; apply N; right; exact X).
    destruct (process_req n r t) as [n'| |] eqn:P.
    - destruct (consume n' (S i) rs t) as [[m0 out0] inv0] eqn:E0. injection E as <- <- <-.
      exact (IH _ _ _ _ _ _ (InvO_process _ _ _ _ I (N r (or_introl eq_refl)) P) N' E0).
    - destruct (consume n (S i) rs t) as [[m0 out0] inv0] eqn:E0. injection E as <- <- <-. exact (IH _ _ _ _ _ _ I N' E0).
    - exact (IH _ _ _ _ _ _ I N' E).
  Qed.

  (** fewer uncommitted transactions, whatever the states *)
  Lemma InvO_shrink : forall n m, InvO n -> n_db m = n_db n -> n_full m = n_full n ->
    (forall k, l_com (n_l m k) = l_com (n_l n k) /\ exists j, l_unc (n_l m k) = firstn j (l_unc (n_l n k))) -> InvO m.
  Proof.
    intros n m [[L ND] (I1 & I2 & I3)] E1 E2 H.
    assert (B : forall k, exists r, both n k = both m k ++ r).
    { intros k. destruct (H k) as [C (j & U)]. exists (skipn j (l_unc (n_l n k))). unfold both. rewrite C, U, <- app_assoc, firstn_skipn. reflexivity. }
    split; [split|split; [|split]].
    - intros k x X. apply L. destruct (B k) as (r & ->). apply in_or_app. left. exact X.
    - intros k. destruct (B k) as (r & R). specialize (ND k). rewrite R in ND. unfold pays in ND |- *. rewrite map_app in ND. exact (nodup_app_l _ _ ND).
    - intros k i x. rewrite (proj1 (H k)), E1, E2. exact (I1 k i x).
    - intros p k s. rewrite E1, (proj1 (H k)). exact (I2 p k s).
    - intros f. rewrite E2. intros G. destruct (I3 f G) as (k & x & X). exists k, x. rewrite (proj1 (H k)). exact X.
  Qed.
  Lemma InvO_revert : forall n k before c m, InvO n -> revert n k before c = Some m -> InvO m.
  Proof.
    intros n k before c m I R. unfold revert in R. destruct (length (l_unc (n_l n k)) <? c); [discriminate|]. injection R as <-.
    apply (InvO_shrink n); [exact I|reflexivity|reflexivity|]. intros i. cbn. unfold upd. destruct (Nat.eqb_spec i k) as [->|_]; cbn.
    - split; [reflexivity|]. eexists. reflexivity.
    - split; [reflexivity|]. exists (length (l_unc (n_l n i))). rewrite firstn_all. reflexivity.
  Qed.
  Lemma InvO_revert_all : forall bs n m, InvO n -> revert_all n bs = Some m -> InvO m.
  Proof.
    induction bs as [|b bs IH]; intros n m I R; cbn in R; [injection R as <-; exact I|].
    destruct (revert n (p_lid (b_pp b)) (b_before b) (length (p_reqs (b_pp b)) - length (p_disc (b_pp b)))) as [n'|] eqn:E; [|discriminate].
    exact (IH n' m (InvO_revert _ _ _ _ _ I E) R).
  Qed.
  Lemma InvO_same : forall n m, InvO n -> n_db m = n_db n -> n_full m = n_full n -> (forall k, n_l m k = n_l n k) -> InvO m.
  Proof.
    intros n m I A B C. apply (InvO_shrink n m I A B). intros k. rewrite C. split; [reflexivity|]. exists (length (l_unc (n_l n k))). rewrite firstn_all. reflexivity.
  Qed.

  (** transactions [xs] come to the end of the committed part of ledger [k] and are indexed *)
  Lemma InvO_written : forall n m k xs unc db full, placed m -> indexed n -> (forall x, In x xs -> ~ In (pay x) (pays (l_com (n_l n k)))) ->
    (forall i, i <> k -> l_com (n_l m i) = l_com (n_l n i)) -> l_com (n_l m k) = l_com (n_l n k) ++ xs -> l_unc (n_l m k) = unc ->
    update_map id_of (n_db n) (n_full n) k (S (length (l_com (n_l n k)))) xs = (db, full) -> n_db m = db -> n_full m = full -> InvO m.
  Proof.
    intros n m k xs unc db full P (I1 & I2 & I3) NW O C U M DB FU. split; [exact P|]. pose proof P as [L ND].
    assert (IN : forall x, In x xs -> In x (both m k)) by (intros x X; unfold both; rewrite C; apply in_or_app; left; apply in_or_app; right; exact X).
    assert (NX : NoDup (pays xs)).
    { specialize (ND k). unfold both, pays in ND. rewrite C, <- app_assoc, map_app, map_app in ND. apply nodup_app_r in ND. exact (nodup_app_l _ _ ND). }
    unfold update_map in M. destruct (forallb (fun x => negb (id_of (r_pay (x_req x)) =? 0)) xs) eqn:FA.
    2:{ exfalso. apply not_true_iff_false in FA. apply FA. apply forallb_forall. intros x X. destruct (L k x (IN x X)) as [_ NZ]. unfold pay in NZ. apply negb_true_iff, Nat.eqb_neq. exact NZ. }
    destruct (add_batch_spec _ _ _ _ _ _ _ NX M) as (A & B & F1 & F2 & F3). rewrite <- DB in *. rewrite <- FU in *.
    split; [|split].
    - intros i j x X. destruct (Nat.eq_dec i k) as [->|NE].
      + rewrite C in X. destruct (Nat.lt_ge_cases j (length (l_com (n_l n k)))) as [LT|GE].
        * rewrite nth_error_app1 in X by exact LT. destruct (I1 k j x X) as [G1 G2]. split; [|exact (F2 _ G2)]. rewrite B; [exact G1|].
          intros Y. apply in_map_iff in Y. destruct Y as (y & E & Y). apply (NW y Y). rewrite E. apply in_map. exact (nth_error_In _ _ X).
        * rewrite nth_error_app2 in X by exact GE. split; [|apply F1; exact (nth_error_In _ _ X)]. rewrite (A _ _ X). f_equal. f_equal. lia.
      + rewrite (O i NE) in X. destruct (I1 i j x X) as [G1 G2]. split; [|exact (F2 _ G2)]. rewrite B; [exact G1|].
        intros Y. apply in_map_iff in Y. destruct Y as (y & E & Y). destruct (L k y (IN y Y)) as [LY _].
        assert (X' : In x (both m i)) by (unfold both; rewrite (O i NE); apply in_or_app; left; exact (nth_error_In _ _ X)).
        destruct (L i x X') as [LX _]. rewrite E in LY. congruence.
    - intros p i s G. destruct (in_dec Nat.eq_dec p (pays xs)) as [Y|NY].
      + apply in_map_iff in Y. destruct Y as (y & E & Y). destruct (In_nth_error _ _ Y) as (j & J). pose proof (A j y J) as G'. rewrite E in G'. rewrite G' in G. injection G as <- <-.
        exists (length (l_com (n_l n k)) + j), y. split; [lia|]. split; [|exact E]. rewrite C, nth_error_app2 by lia.
        replace (length (l_com (n_l n k)) + j - length (l_com (n_l n k))) with j by lia. exact J.
      + rewrite (B p NY) in G. destruct (I2 p i s G) as (j & x & E1 & E2 & E3). exists j, x. split; [exact E1|]. split; [|exact E3].
        destruct (Nat.eq_dec i k) as [->|NE]; [|rewrite (O i NE); exact E2]. rewrite C. rewrite nth_error_app1; [exact E2|]. apply nth_error_Some. congruence.
    - intros f G. destruct (F3 f G) as [G'|(x & X & E)].
      + destruct (I3 f G') as (i & x & X & E). exists i, x. split; [|exact E]. destruct (Nat.eq_dec i k) as [->|NE]; [rewrite C; apply in_or_app; left; exact X | rewrite (O i NE); exact X].
      + exists k, x. split; [rewrite C; apply in_or_app; right; exact X | exact E].
  Qed.

  Lemma nodup_disjoint : forall (a b : list nat), NoDup (a ++ b) -> forall x, In x b -> ~ In x a.
  Proof.
    induction a as [|y a IH]; intros b N x X Y; [destruct Y|]. cbn in N. inversion N as [|z l NI ND]; subst. destruct Y as [->|Y]; [apply NI, in_or_app; right; exact X | exact (IH b ND x X Y)].
  Qed.

  Lemma InvO_commit : forall n p m, InvO n -> commit n p = Some m -> InvO m.
  Proof.
    intros n p m [P I] E. unfold Exec_Model.commit in E. set (l := n_l n (p_lid p)) in *. set (k := length (valid_reqs p)) in *.
    destruct (txns_eqb (l_com l ++ firstn k (l_unc l)) (p_troot p)); [|discriminate].
    destruct (update_map id_of (n_db n) (n_full n) (p_lid p) (S (length (l_com l))) (firstn k (l_unc l))) as [db full] eqn:U. injection E as <-.
    assert (B : forall i, both (mkN (upd (n_l n) (p_lid p) (mkL (l_com l ++ firstn k (l_unc l)) (skipn k (l_unc l)) (l_head l) (p_sroot p))) db full (n_app n)) i = both n i).
    { intros i. unfold both, upd; cbn. destruct (Nat.eqb_spec i (p_lid p)) as [->|_]; [|reflexivity]. cbn. rewrite <- app_assoc, firstn_skipn. reflexivity. }
    apply (InvO_written n _ (p_lid p) (firstn k (l_unc l)) (skipn k (l_unc l)) db full); cbn; try reflexivity.
    - destruct P as [L ND]. split; [intros i x X; rewrite B in X; exact (L i x X) | intros i; rewrite B; exact (ND i)].
    - exact I.
    - intros x X. destruct P as [_ ND]. specialize (ND (p_lid p)). unfold both, pays in ND. rewrite map_app in ND. apply (nodup_disjoint _ _ ND).
      apply in_map. fold l. rewrite <- (firstn_skipn k (l_unc l)). apply in_or_app. left. exact X.
    - intros i NE. rewrite (upd_other _ _ _ _ NE). reflexivity.
    - rewrite upd_same. reflexivity.
    - rewrite upd_same. reflexivity.
    - exact U.
  Qed.

  Lemma InvO_stashed : forall rs n t, InvO n -> NoDup (map r_pay rs) -> numbered rs -> (forall r, In r rs -> ~ somewhere n (r_pay r)) -> InvO (apply_stashed lid_of n rs t).
  Proof.
    induction rs as [|r rs IH]; intros n t I ND N NS; cbn [apply_stashed]; [exact I|]. cbn in ND. inversion ND as [|y l NI ND']; subst. apply IH.
    - apply InvO_apply; [exact I | apply NS; left; reflexivity | apply N; left; reflexivity].
    - exact ND'.
    - intros x X. apply N. right. exact X.
    - intros x X SW. destruct (somewhere_apply _ _ _ _ SW) as [SW'|E]; [exact (NS x (or_intror X) SW')|]. apply NI. rewrite <- E. apply in_map. exact X.
  Qed.

  Lemma nodup_filter_map : forall (f : req -> bool) rs, NoDup (map r_pay rs) -> NoDup (map r_pay (filter f rs)).
  Proof.
    intros f. induction rs as [|r rs IH]; cbn; intros N; [constructor|]. inversion N as [|y l NI ND]; subst. destruct (f r); [|exact (IH ND)]. cbn. constructor; [|exact (IH ND)].
    intros X. apply NI. apply in_map_iff in X. destruct X as (x & E & X). apply filter_In in X. rewrite <- E. apply in_map. exact (proj1 X).
  Qed.

  Lemma step_InvO : forall n e m, InvO n -> fit_once n e -> step n e = Some m -> InvO m.
  Proof.
    intros n e m I F E. destruct e as [lid rs t|p| | |p| |lid x|]; cbn [Exec_Model.step] in E; cbn [Exec_Spec.fit_once] in F.
    - unfold create in E. destruct (consume n 0 (queue lid_of lid rs) t) as [[g out] inv] eqn:C. injection E as <-.
      apply (InvO_same g); try reflexivity. apply (InvO_consume _ _ _ _ _ _ _ I) in C; [exact C|]. intros r R. apply F. unfold queue in R. apply filter_In in R. exact (proj1 R).
    - destruct (Exec_Model.process_pp lid_of ok n p) as [[m' b]|] eqn:P; [|discriminate]. injection E as ->. unfold process_pp in P.
      destruct (apply_reqs n 0 (p_reqs p) (p_time p)) as [[g inv] s] eqn:A. pose proof (InvO_apply_reqs _ _ _ _ _ _ _ I F A) as IG.
      destruct (negb (p_whole p)); [injection P as <- <-; exact IG|].
      destruct (negb s && (length inv =? length (p_disc p)) && txns_eqb (p_sroot p) (l_head (n_l g (p_lid p))) && txns_eqb (p_troot p) (l_com (n_l g (p_lid p)) ++ l_unc (n_l g (p_lid p)))).
      + injection P as <- <-. apply (InvO_same g); auto.
      + destruct (revert g (p_lid p) (l_head (n_l n (p_lid p))) (length (p_reqs p) - length inv)) as [g'|] eqn:R; [|discriminate]. injection P as <- <-. exact (InvO_revert _ _ _ _ _ IG R).
    - injection E as <-. apply (InvO_same n); auto.
    - destruct (n_app n) as [|b bs]; [injection E as <-; exact I|]. destruct (b_ord b); [|injection E as <-; exact I].
      destruct (commit n (b_pp b)) as [g|] eqn:C; [|discriminate]. injection E as <-. apply (InvO_same g); auto. exact (InvO_commit _ _ _ I C).
    - destruct (n_app n) as [|b bs]; [|injection E as <-; exact I]. destruct F as (N & ND & NP). apply (InvO_commit _ _ _) in E; [exact E|].
      apply InvO_stashed; [exact I | apply nodup_filter_map; exact ND | |].
      + intros r R. apply filter_In in R. apply N. exact (keep_incl _ _ _ r (proj1 R)).
      + intros r R. apply filter_In in R. destruct R as [R K]. apply negb_true_iff in K. exact (not_somewhere n r I K (NP r R)).
    - destruct (revert_all n (rev (filter (fun b => negb (b_ord b)) (n_app n)))) as [g|] eqn:R; [|discriminate]. injection E as <-. apply (InvO_same g); auto. exact (InvO_revert_all _ _ _ I R).
    - destruct (n_app n) as [|b bs]; [|discriminate]. destruct (F eq_refl) as (LI & NZ & NS). clear F.
      destruct (update_map id_of (n_db n) (n_full n) lid (S (length (l_com (n_l n lid)))) [x]) as [db full] eqn:U. injection E as <-. destruct I as [[L ND] IX].
      apply (InvO_written n _ lid [x] (l_unc (n_l n lid)) db full); cbn; try reflexivity.
      + assert (B : forall i y, In y (both (mkN (upd (n_l n) lid (mkL (l_com (n_l n lid) ++ [x]) (l_unc (n_l n lid)) (l_head (n_l n lid) ++ [x]) (l_head (n_l n lid) ++ [x]))) db full []) i) -> In y (both n i) \/ (i = lid /\ y = x)).
        { intros i y Y. unfold both, upd in Y; cbn in Y. destruct (Nat.eqb_spec i lid) as [->|_]; [|left; exact Y]. cbn in Y. rewrite <- app_assoc in Y. apply in_app_or in Y. unfold both.
          destruct Y as [Y|[<-|Y]]; [left; apply in_or_app; left; exact Y | right; auto | left; apply in_or_app; right; exact Y]. }
        split.
        * intros i y Y. destruct (B i y Y) as [Y'|[-> ->]]; [exact (L i y Y')|]. split; [exact LI | exact NZ].
        * intros i. unfold both, upd; cbn. destruct (Nat.eqb_spec i lid) as [->|_]; [|exact (ND i)]. cbn. rewrite <- app_assoc. cbn. unfold pays. rewrite map_app. cbn.
          apply (NoDup_Add (Add_app (pay x) (map pay (l_com (n_l n lid))) (map pay (l_unc (n_l n lid))))). rewrite <- map_app. split; [exact (ND lid)|].
          intros Y. apply in_map_iff in Y. destruct Y as (y & E & Y). apply NS. exists lid, y. split; [exact Y | exact E].
      + exact IX.
      + intros y [<-|[]] Y. apply in_map_iff in Y. destruct Y as (z & E & Y). apply NS. exists lid, z. split; [apply in_or_app; left; exact Y | exact E].
      + intros i NE. rewrite (upd_other _ _ _ _ NE). reflexivity.
      + rewrite upd_same. reflexivity.
      + rewrite upd_same. reflexivity.
      + exact U.
    - injection E as <-. apply (InvO_shrink n); try reflexivity; [exact I|]. intros k. cbn. split; [reflexivity|]. exists 0. reflexivity.
  Qed.

  Lemma run_InvO : forall es n m, InvO n -> fits_once n es -> run n es = Some m -> InvO m.
  Proof.
    induction es as [|e es IH]; intros n m I F R; cbn in R; [injection R as <-; exact I|]. cbn in F. destruct F as [F1 F2].
    destruct (step n e) as [n'|] eqn:E; [|discriminate]. exact (IH n' m (step_InvO _ _ _ I F1 E) F2 R).
  Qed.
End Q.
