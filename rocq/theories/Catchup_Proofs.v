(** Lemmas about the catch-up model. *)
From Coq Require Import List Arith ZArith Bool Lia Permutation Sorted.
From Verif Require Import Base Dict Bits_Model Merkle_Spec Merkle_Model Merkle_Proofs Merkle_Store Merkle_Verify
  Merkle_Ledger Merkle_Props Ledger_Model Ledger_Spec Ledger_Proofs Ledger_Proofs2 Ledger_Props
  CatchupReq_Model CatchupReq_Props Catchup_Model Catchup_Spec.
Import ListNotations.
Local Open Scope res_scope.

(** ** Lists in increasing order of their numbers *)
Section Inc.
  Context {X : Type}.
  Implicit Types l : list (nat * X).
  Fixpoint inc l : Prop :=
    match l with [] => True | x :: l' => (forall y, In y l' -> fst x < fst y) /\ inc l' end.

  Lemma inc_app l1 l2 : inc (l1 ++ l2) <-> inc l1 /\ inc l2 /\ forall x y, In x l1 -> In y l2 -> fst x < fst y.
  Proof.
    induction l1 as [|x l1 IH]; simpl.
    - split; [intros A; split; [exact I|split; [exact A|intros ? ? []]]|tauto].
    - rewrite IH. split.
      + intros (A & B1 & B2 & B3). split; [split; [|exact B1]|].
        * intros y Y. apply A. apply in_app_iff. auto.
        * split; [exact B2|]. intros x' y [<-|I1] I2; [|eauto]. apply A. apply in_app_iff. auto.
      + intros ((A & B1) & B2 & B3). split; [|split; [exact B1|split; [exact B2|]]].
        * intros y Y. apply in_app_iff in Y as [Y|Y]; eauto.
        * intros x' y I1 I2. eauto.
  Qed.
  Lemma inc_skipn l n : inc l -> inc (skipn n l).
  Proof. intros A. rewrite <- (firstn_skipn n l) in A. apply inc_app in A. tauto. Qed.
  Lemma inc_firstn l n : inc l -> inc (firstn n l).
  Proof. intros A. rewrite <- (firstn_skipn n l) in A. apply inc_app in A. tauto. Qed.
  Lemma inc_filter f l : inc l -> inc (filter f l).
  Proof.
    induction l as [|x l IH]; simpl; intros A; [exact A|]. destruct A as [A1 A2]. destruct (f x); simpl; [|auto].
    split; [|auto]. intros y Y. apply filter_In in Y. apply A1. tauto.
  Qed.
  (** elements up to a bound are a prefix *)
  Lemma filter_prefix b l : inc l ->
    filter (fun x => fst x <=? b) l = firstn (length (filter (fun x => fst x <=? b) l)) l.
  Proof.
    induction l as [|x l IH]; simpl; intros A; [reflexivity|]. destruct A as [A1 A2].
    destruct (Nat.leb_spec (fst x) b) as [L|L]; simpl; [f_equal; auto|].
    assert (F : filter (fun y => fst y <=? b) l = []).
    { clear IH A2. induction l as [|y l IH]; [reflexivity|]. simpl. pose proof (A1 y (or_introl eq_refl)) as G.
      destruct (Nat.leb_spec (fst y) b); [lia|]. apply IH. intros z Z. apply A1. simpl. auto. }
    rewrite F. reflexivity.
  Qed.
  Lemma skip_above b l : inc l ->
    forall x, In x (skipn (length (filter (fun x => fst x <=? b) l)) l) <-> In x l /\ b < fst x.
  Proof.
    induction l as [|x l IH]; simpl; intros A z; [tauto|]. destruct A as [A1 A2].
    destruct (Nat.leb_spec (fst x) b) as [L|L]; simpl.
    - rewrite (IH A2). split; [tauto|]. intros [[<-|I] G]; [lia|tauto].
    - assert (F : filter (fun y => fst y <=? b) l = []).
      { clear IH A2. induction l as [|y l IH]; [reflexivity|]. simpl. pose proof (A1 y (or_introl eq_refl)) as G.
        destruct (Nat.leb_spec (fst y) b); [lia|]. apply IH. intros w W. apply A1. simpl. auto. }
      rewrite F. simpl. split; [|tauto]. intros [<-|I]; [auto|]. specialize (A1 z I). split; [auto|lia].
  Qed.
  Lemma inc_nodup l : inc l -> NoDup (map fst l).
  Proof.
    induction l as [|x l IH]; simpl; intros A; [constructor|]. destruct A as [A1 A2]. apply NoDup_cons; [|auto].
    intros I. apply in_map_iff in I as (y & E & I). specialize (A1 y I). lia.
  Qed.
  Lemma seq_inc l a : map fst l = seq a (length l) -> inc l.
  Proof.
    revert a. induction l as [|x l IH]; simpl; intros a E; [exact I|]. injection E as E1 E2. split; [|eauto].
    intros y Y. apply (in_map fst) in Y. rewrite E2 in Y. apply in_seq in Y. lia.
  Qed.
End Inc.

Lemma NoDup_perm_seq l a n : Permutation l (seq a n) -> forall k, In k l <-> a <= k < a + n.
Proof. intros P k. rewrite <- in_seq. split; apply Permutation_in; [exact P|apply Permutation_sym; exact P]. Qed.

Section Lists.
  Variable B : Type.
  Notation T := (nat * txn B)%type.

  Lemma insert_perm x l : Permutation (x :: l) (insert_by B x l).
  Proof.
    induction l as [|y l IH]; simpl; [apply Permutation_refl|]. destruct (fst x <=? fst y); [apply Permutation_refl|].
    eapply perm_trans; [apply perm_swap|]. apply perm_skip. exact IH.
  Qed.
  Lemma sort_perm l : Permutation l (sort_by B l).
  Proof.
    induction l as [|x l IH]; simpl; [apply Permutation_refl|].
    eapply perm_trans; [apply perm_skip; exact IH|apply insert_perm].
  Qed.
  Lemma contiguous_seq l : contiguous B l = true -> forall x r, l = x :: r -> map fst l = seq (fst x) (length l).
  Proof.
    induction l as [|x l IH]; intros E x' r El; [discriminate|]. injection El as <- <-.
    destruct l as [|y l]; [reflexivity|]. cbn [contiguous] in E. apply andb_prop in E as [E1 E2]. apply Nat.eqb_eq in E1.
    change (map fst (x :: y :: l)) with (fst x :: map fst (y :: l)).
    rewrite (IH E2 y l eq_refl), E1. cbn [length seq]. rewrite Nat.add_1_r. reflexivity.
  Qed.
  Lemma interesting_ok n txns l : interesting B n txns = Some l ->
    exists a, 0 < length l /\ map fst l = seq a (length l) /\ Permutation (map (fun '(k, x) => (fst k, x)) txns) l /\
      n < a + length l.
  Proof.
    unfold interesting. set (w := sort_by B (map (fun '(k, x) => (fst k, x)) txns)).
    destruct (existsb (fun x => n <? fst x) w) eqn:E1; [|discriminate]. cbn [negb].
    destruct (contiguous B w) eqn:E2; [|discriminate]. cbn [negb]. intros E. injection E as <-.
    apply existsb_exists in E1 as (z & Z & L). apply Nat.ltb_lt in L.
    destruct w as [|x r] eqn:Ew; [destruct Z|]. exists (fst x). split; [simpl; lia|].
    pose proof (contiguous_seq _ E2 x r eq_refl) as SQ. split; [exact SQ|]. split.
    - rewrite <- Ew. apply sort_perm.
    - apply (in_map fst) in Z. rewrite SQ in Z. apply in_seq in Z. lia.
  Qed.

  Fixpoint weak (l : list T) : Prop := match l with [] => True | x :: l' => (forall y, In y l' -> fst x <= fst y) /\ weak l' end.
  Lemma insert_weak x l : weak l -> weak (insert_by B x l).
  Proof.
    induction l as [|y l IH]; simpl; intros W; [split; [intros ? []|exact I]|]. destruct W as [W1 W2].
    destruct (Nat.leb_spec (fst x) (fst y)) as [L|L].
    - split; [|split; assumption]. intros z [<-|Z]; [exact L|]. specialize (W1 z Z). lia.
    - split; [|auto]. intros z Z. apply (Permutation_in _ (Permutation_sym (insert_perm x l))) in Z.
      destruct Z as [<-|Z]; [lia|auto].
  Qed.
  Lemma sort_weak l : weak (sort_by B l).
  Proof. induction l as [|x l IH]; simpl; [exact I|]. apply insert_weak. exact IH. Qed.
  Lemma weak_seq l : forall a n, weak l -> Permutation (map fst l) (seq a n) -> map fst l = seq a n.
  Proof.
    induction l as [|x l IH]; intros a n W P.
    - apply Permutation_nil in P. rewrite P. reflexivity.
    - destruct W as [W1 W2]. destruct n as [|n]; [apply Permutation_sym, Permutation_nil in P; discriminate|].
      assert (fst x = a) as E.
      { assert (In (fst x) (seq a (S n))) as I1 by (apply (Permutation_in _ P); left; reflexivity). apply in_seq in I1.
        assert (In a (map fst (x :: l))) as I2 by (apply (Permutation_in _ (Permutation_sym P)); apply in_seq; lia).
        destruct I2 as [I2|I2]; [exact I2|]. apply in_map_iff in I2 as (y & Ey & Y). specialize (W1 y Y). lia. }
      cbn [map seq] in *. rewrite E in *. f_equal. apply IH; [exact W2|]. apply (Permutation_cons_inv P).
  Qed.
  Lemma seq_contiguous l : forall a, map fst l = seq a (length l) -> contiguous B l = true.
  Proof.
    induction l as [|x l IH]; intros a E; [reflexivity|]. destruct l as [|y l]; [reflexivity|].
    cbn [contiguous].
    assert (E2 : map fst (y :: l) = seq (S a) (length (y :: l))) by (apply (f_equal (@tl nat)) in E; exact E).
    assert (E1 : fst x = a) by (apply (f_equal (hd 0)) in E; exact E).
    apply andb_true_intro. split.
    - apply (f_equal (hd 0)) in E2. simpl in E2. apply Nat.eqb_eq. lia.
    - apply (IH (S a)). exact E2.
  Qed.
  Lemma interesting_complete n txns a m : Permutation (map (fun y => fst (fst y)) txns) (seq a m) -> 0 < m ->
    n < a + m - 1 -> exists l, interesting B n txns = Some l.
  Proof.
    intros P M0 G. unfold interesting. set (w := sort_by B (map (fun '(k, x) => (fst k, x)) txns)).
    assert (Q : Permutation (map fst w) (seq a m)).
    { eapply perm_trans; [|exact P]. apply Permutation_sym. unfold w. eapply perm_trans; [|apply Permutation_map; apply sort_perm].
      rewrite map_map. rewrite (map_ext (fun y => fst (fst y)) (fun x => fst (let '(k, x0) := x in (fst k, x0)))) by (intros (k, x); reflexivity).
      apply Permutation_refl. }
    pose proof (weak_seq w a m (sort_weak _) Q) as E.
    assert (LW : length w = m) by (rewrite <- (map_length fst), E, seq_length; reflexivity).
    assert (E1 : existsb (fun x => n <? fst x) w = true).
    { assert (In (a + m - 1) (map fst w)) as I1 by (rewrite E; apply in_seq; lia).
      apply in_map_iff in I1 as (y & Ey & Y). apply existsb_exists. exists y. split; [exact Y|]. apply Nat.ltb_lt. lia. }
    rewrite E1. rewrite (seq_contiguous w a) by (rewrite LW; exact E). cbn [negb]. eauto.
  Qed.

  (** ** Merging *)
  Lemma idx_above e a b : (forall x, In x e -> b < fst x) -> a <= b -> idx_to_remove B e a b = [].
  Proof.
    intros A L. destruct e as [|(n, x) e]; [reflexivity|]. simpl. specialize (A (n, x) (or_introl eq_refl)). simpl in A.
    destruct (Nat.ltb_spec n a); [lia|]. destruct (Nat.ltb_spec b n); [reflexivity|lia].
  Qed.
  Definition notin (e : list T) (y : T) : bool := negb (existsb (Nat.eqb (fst y)) (map fst e)).
  Lemma notin_true e y : notin e y = true <-> ~ In (fst y) (map fst e).
  Proof.
    unfold notin. rewrite negb_true_iff. split.
    - intros E I. apply not_true_iff_false in E. apply E. apply existsb_exists. exists (fst y). split; [exact I|]. apply Nat.eqb_refl.
    - intros N. apply not_true_iff_false. intros E. apply existsb_exists in E as (k & K & E). apply Nat.eqb_eq in E. subst k. tauto.
  Qed.
  Lemma filter_all {A} (f : A -> bool) l : (forall x, In x l -> f x = true) -> filter f l = l.
  Proof. induction l as [|x l IH]; simpl; intros A0; [reflexivity|]. rewrite (A0 x (or_introl eq_refl)). f_equal. apply IH. auto. Qed.
  Lemma filter_ext_in' {A} (f g : A -> bool) l : (forall x, In x l -> f x = g x) -> filter f l = filter g l.
  Proof. induction l as [|x l IH]; simpl; intros A0; [reflexivity|]. rewrite (A0 x (or_introl eq_refl)), IH; auto. Qed.

  Lemma removed_ok e : inc e -> forall new a, map fst new = seq a (length new) -> 0 < length new ->
    fold_left (fun l i => remove_nth i l) (rev (idx_to_remove B e a (a + length new - 1))) new = filter (notin e) new.
  Proof.
    induction e as [|(n, x) e IH]; intros I new a SQ L.
    - simpl. symmetry. apply filter_all. reflexivity.
    - destruct I as [I1 I2]. simpl in I1. cbn [idx_to_remove]. destruct (Nat.ltb_spec n a) as [La|La].
      + rewrite (IH I2 new a SQ L). apply filter_ext_in'. intros y Y.
        apply (in_map fst) in Y. rewrite SQ in Y. apply in_seq in Y. unfold notin. cbn [map existsb fst].
        destruct (Nat.eqb_spec (fst y) n); [lia|reflexivity].
      + destruct (Nat.ltb_spec (a + length new - 1) n) as [Lb|Lb].
        * simpl. symmetry. apply filter_all. intros y Y. apply notin_true. intros J.
          apply (in_map fst) in Y. rewrite SQ in Y. apply in_seq in Y. cbn [map fst] in J. destruct J as [J|J]; [lia|].
          apply in_map_iff in J as (z & Ez & J). specialize (I1 z J). lia.
        * cbn [rev]. rewrite fold_left_app. cbn [fold_left]. rewrite (IH I2 new a SQ L).
          assert (N : exists y, nth_error new (n - a) = Some y).
          { destruct (nth_error new (n - a)) as [y|] eqn:E; [eauto|]. apply nth_error_None in E. lia. }
          destruct N as (y & N). destruct (nth_error_split _ _ N) as (n1 & n2 & En & Ln).
          assert (F1 : map fst n1 = seq a (length n1) /\ fst y = n /\ map fst n2 = seq (S n) (length n2)).
          { rewrite En, map_app, app_length in SQ. rewrite seq_app in SQ. simpl in SQ.
            apply app_inv_length_l in SQ; [|rewrite map_length, seq_length; reflexivity].
            destruct SQ as [S1 S2]. injection S2 as S2 S3. rewrite Ln in S2, S3. split; [exact S1|].
            split; [lia|]. rewrite S3. f_equal. lia. }
          destruct F1 as (F1 & F2 & F3). rewrite En, !filter_app. cbn [filter].
          assert (G1 : forall m, (forall z, In z n1 -> notin m z = true) -> filter (notin m) n1 = n1).
          { intros m G. apply filter_all. exact G. }
          assert (R1 : forall z, In z n1 -> fst z < n).
          { intros z Z. apply (in_map fst) in Z. rewrite F1 in Z. apply in_seq in Z. lia. }
          rewrite (G1 e). 2:{ intros z Z. apply notin_true. intros J. apply in_map_iff in J as (w & Ew & J).
            specialize (I1 w J). specialize (R1 z Z). lia. }
          rewrite (G1 ((n, x) :: e)). 2:{ intros z Z. apply notin_true. intros J. specialize (R1 z Z). cbn [map fst] in J.
            destruct J as [J|J]; [lia|]. apply in_map_iff in J as (w & Ew & J). specialize (I1 w J). lia. }
          assert (Y1 : notin e y = true).
          { apply notin_true. rewrite F2. intros J. apply in_map_iff in J as (w & Ew & J). specialize (I1 w J). lia. }
          assert (Y2 : notin ((n, x) :: e) y = false).
          { unfold notin. cbn [map existsb fst]. rewrite F2, Nat.eqb_refl. reflexivity. }
          rewrite Y1, Y2.
          assert (F4 : filter (notin ((n, x) :: e)) n2 = filter (notin e) n2).
          { apply filter_ext_in'. intros z Z. apply (in_map fst) in Z. rewrite F3 in Z. apply in_seq in Z.
            unfold notin. cbn [map existsb fst]. destruct (Nat.eqb_spec (fst z) n); [lia|reflexivity]. }
          rewrite F4. unfold remove_nth. rewrite <- Ln.
          rewrite firstn_app, Nat.sub_diag, firstn_all. cbn [firstn]. rewrite app_nil_r.
          rewrite skipn_app, skipn_all2 by lia. replace (S (length n1) - length n1) with 1 by lia. reflexivity.
  Qed.

  Lemma merge_perm l1 : forall l2, Permutation (l1 ++ l2) (merge_by B l1 l2).
  Proof.
    induction l1 as [|x l1 IH]; [intros; apply Permutation_refl|].
    induction l2 as [|y l2 IH2]; [rewrite app_nil_r; apply Permutation_refl|].
    cbn [merge_by]. destruct (fst x <=? fst y); [simpl; apply perm_skip; apply IH|].
    eapply perm_trans; [apply Permutation_sym, Permutation_middle|]. apply perm_skip. exact IH2.
  Qed.
  Lemma merge_inc l1 : forall l2, inc l1 -> inc l2 -> (forall x, In x l2 -> ~ In (fst x) (map fst l1)) ->
    inc (merge_by B l1 l2).
  Proof.
    induction l1 as [|x l1 IH]; [auto|]. induction l2 as [|y l2 IH2]; intros I1 I2 D; [exact I1|].
    cbn [merge_by]. destruct (Nat.leb_spec (fst x) (fst y)) as [L|L].
    - split.
      + intros z Z. apply (Permutation_in _ (Permutation_sym (merge_perm l1 (y :: l2)))) in Z.
        assert (fst x <> fst y) as Ne.
        { intros E. apply (D y (or_introl eq_refl)). left. exact E. }
        apply in_app_iff in Z as [Z|[<-|Z]]; [apply I1; exact Z|lia|]. destruct I2 as [I2 _]. specialize (I2 z Z). lia.
      + apply IH; [apply I1|exact I2|]. intros z Z J. apply (D z Z). right. exact J.
    - split.
      + intros z Z. change (In z (merge_by B (x :: l1) l2)) in Z.
        apply (Permutation_in _ (Permutation_sym (merge_perm (x :: l1) l2))) in Z.
        apply in_app_iff in Z as [[<-|Z]|Z]; [exact L| |].
        * destruct I1 as [I1 _]. specialize (I1 z Z). lia.
        * apply I2. exact Z.
      + apply IH2; [exact I1|apply I2|]. intros z Z. apply D. right. exact Z.
  Qed.
  Lemma merged_ok e new a : inc e -> map fst new = seq a (length new) -> 0 < length new ->
    inc (merge_catchup_txns B e new) /\
    forall y, In y (merge_catchup_txns B e new) <-> In y e \/ (In y new /\ ~ In (fst y) (map fst e)).
  Proof.
    intros I SQ L. unfold merge_catchup_txns. destruct new as [|x0 new0] eqn:En; [simpl in L; lia|]. rewrite <- En in *.
    assert (A : fst x0 = a) by (rewrite En in SQ; simpl in SQ; congruence).
    assert (Bn : fst (last new x0) = a + length new - 1).
    { destruct (list_snoc new) as (l' & z & El); [congruence|]. rewrite El, last_last.
      rewrite El, map_app, app_length, seq_app in SQ. apply app_inv_length_l in SQ; [|rewrite map_length, seq_length; reflexivity].
      destruct SQ as [_ S2]. simpl in S2. injection S2 as S2. rewrite app_length. simpl. lia. }
    rewrite A, Bn, (removed_ok e I new a SQ L). split.
    - apply merge_inc; [exact I|apply inc_filter; eapply seq_inc; exact SQ|].
      intros y Y. apply filter_In in Y as [_ Y]. apply notin_true. exact Y.
    - intros y. split.
      + intros Y. apply (Permutation_in _ (Permutation_sym (merge_perm _ _))) in Y. apply in_app_iff in Y as [Y|Y]; [auto|].
        apply filter_In in Y as [Y1 Y2]. apply notin_true in Y2. auto.
      + intros Y. apply (Permutation_in _ (merge_perm _ _)). apply in_app_iff. destruct Y as [Y|[Y1 Y2]]; [auto|].
        right. apply filter_In. split; [exact Y1|]. apply notin_true. exact Y2.
  Qed.
End Lists.

Section State.
  Variable H : bytes -> bytes.
  Variable B : Type.
  Variable ser_log : txn B -> bytes.
  Variable ser_tree : txn B -> bytes.
  Variable transform : txn B -> res (txn B).
  Variable batch lid : nat.

  Notation rep := (rep B).
  Notation st := (st B).
  Notation PInv := (PInv H B ser_log ser_tree).
  Notation process_loop := (process_loop H B ser_log ser_tree transform).
  Notation has_valid := (has_valid_catchup_replies H B ser_tree transform).
  Notation add_txns := (add_txns H B ser_log ser_tree transform).
  Notation process_catchup_txns := (process_catchup_txns H B ser_log ser_tree transform).
  Notation process_catchup_rep := (process_catchup_rep H B ser_log ser_tree transform lid).
  Notation TreeOf := (TreeOf H).
  Notation lhs := (lhs H B ser_tree).

  (** the ledger holds exactly [C], nothing uncommitted *)
  Definition PI (s : st) (C : list (txn B)) : Prop := PInv (s_led B s) (mkLst C [] false).

  Lemma PI_size s C : PI s C -> csize B s = length C.
  Proof. intros (LI & _). exact (size_ok _ _ _ _ _ _ LI). Qed.
  Lemma PI_seqNo s C : PI s C -> l_seqNo (p_base (s_led B s)) = length C.
  Proof. intros (LI & _). destruct LI as [(_ & _ & E & _) _]. rewrite E. apply lhs_length. Qed.
  Lemma PI_tree s C : PI s C -> TreeOf (l_tree (p_base (s_led B s))) (lhs C).
  Proof. intros (LI & _). apply LI. Qed.

  (** ** Replies with ordinary keys *)
  Notation canonical := (canonical B).
  Notation ranged := (ranged B).
  Lemma ranged_in r a n k : ranged r a n -> in_rep B k r = true <-> a <= k < a + n.
  Proof.
    intros (l & E & C & _ & P). unfold in_rep. rewrite E. rewrite <- (NoDup_perm_seq _ _ _ P k). split.
    - intros X. apply existsb_exists in X as (((k', i), x) & I & X). apply andb_prop in X as [X _]. simpl in X.
      apply Nat.eqb_eq in X. subst k'. apply in_map_iff. exists ((k, i), x). auto.
    - intros I. apply in_map_iff in I as (((k', i), x) & E' & I). simpl in E'. subst k'.
      apply existsb_exists. exists ((k, i), x). split; [exact I|]. simpl. pose proof (C _ _ I) as Z. simpl in Z. subst i.
      rewrite !Nat.eqb_refl. reflexivity.
  Qed.
  Lemma ranged_len r a n : ranged r a n -> rep_len B r = n.
  Proof.
    intros (l & E & _ & _ & P). unfold rep_len. rewrite E. apply Permutation_length in P.
    rewrite map_length, seq_length in P. exact P.
  Qed.
  Lemma interesting_ranged r l n txns : canonical r -> r_txns B r = Some l -> interesting B n l = Some txns ->
    exists a, 0 < length txns /\ map fst txns = seq a (length txns) /\ ranged r a (length txns) /\
      (forall k x, In (k, x) txns <-> In ((k, 0), x) l) /\ n < a + length txns.
  Proof.
    intros C E I. destruct (interesting_ok B _ _ _ I) as (a & L & SQ & P & G). exists a.
    split; [exact L|]. split; [exact SQ|]. split; [|split; [|exact G]].
    - exists l. split; [exact E|]. split; [intros k x J; exact (C l k x E J)|]. split; [exact L|].
      apply (Permutation_map fst) in P. rewrite SQ in P. rewrite map_map in P.
      rewrite (map_ext _ (fun y => fst (fst y))) in P by (intros (k, x); reflexivity). exact P.
    - intros k x. split; intros J.
      + apply (Permutation_in _ (Permutation_sym P)) in J. apply in_map_iff in J as ((k', x') & E' & J).
        injection E' as <- <-. pose proof (C _ _ _ E J) as Z. destruct k' as (k', i). simpl in *. subst i. exact J.
      + apply (Permutation_in _ P). apply in_map_iff. exists ((k, 0), x). auto.
  Qed.

  (** all stored replies have ordinary keys without gaps *)
  Definition stored (s : st) : Prop := forall frm reps r, In (frm, reps) (s_replies B s) -> In r reps -> exists a n, ranged r a n.

  Lemma find_reply_in n d frm r : find_reply B n d = Some (frm, r) ->
    exists reps, In (frm, reps) d /\ In r reps /\ in_rep B n r = true.
  Proof.
    induction d as [|(f, reps) d IH]; simpl; [discriminate|]. destruct (find (in_rep B n) reps) as [r'|] eqn:F.
    - intros E. injection E as <- <-. apply List.find_some in F as [F1 F2]. exists reps. auto.
    - intros E. destruct (IH E) as (reps' & I & J). exists reps'. auto.
  Qed.
  Lemma remove_first_in n reps r : In r (remove_first B n reps) -> In r reps.
  Proof.
    induction reps as [|x reps IH]; simpl; [auto|]. destruct reps as [|y reps]; [intros []|].
    destruct (in_rep B n x); [intros J; right; exact J|]. intros [<-|J]; [left; reflexivity|right; exact (IH J)].
  Qed.
  Lemma in_set {V} k (v : V) d k' v' : In (k', v') (set k v d) -> (k' = k /\ v' = v) \/ In (k', v') d.
  Proof.
    induction d as [|(k0, v0) d IH]; simpl.
    - intros [E|[]]. injection E as <- <-. auto.
    - destruct (Nat.eqb_spec k k0) as [->|N]; simpl.
      + intros [E|I]; [injection E as <- <-; auto|auto].
      + intros [E|I]; [auto|]. destruct (IH I) as [X|X]; auto.
  Qed.
  Lemma get_or_in {V} k (d : dict (list V)) (x : V) : In x (get_or k [] d) -> exists l, In (k, l) d /\ In x l.
  Proof. unfold get_or. destruct (get k d) as [l|] eqn:E; [|intros []]. intros I. exists l. split; [apply get_in; exact E|exact I]. Qed.
  Lemma stored_remove node n s : stored s -> stored (remove_processed B node n s).
  Proof.
    intros S0 frm reps r I J. unfold remove_processed in I. cbn [s_replies with_replies] in I.
    apply in_set in I as [[-> ->]|I]; [|eapply S0; eauto].
    apply remove_first_in in J. apply get_or_in in J as (l & L & J). eapply S0; eauto.
  Qed.

  (** the transactions checked are the ones at the front *)
  Lemma checked_prefix r a n (txns : list (nat * txn B)) k x rest : ranged r a n -> inc txns -> txns = (k, x) :: rest -> a <= k ->
    let c := filter (fun x => in_rep B (fst x) r) (firstn (rep_len B r) txns) in
    c = firstn (length c) txns.
  Proof.
    intros R I E A c.
    assert (F : c = filter (fun y => fst y <=? a + n - 1) (firstn (rep_len B r) txns)).
    { unfold c. apply filter_ext_in'. intros y Y.
      assert (G : a <= fst y).
      { assert (In y txns) as Y'. { rewrite <- (firstn_skipn (rep_len B r) txns). apply in_app_iff. auto. }
        rewrite E in Y'. destruct Y' as [<-|Y']; [exact A|]. rewrite E in I. destruct I as [I _]. specialize (I y Y'). simpl in I. lia. }
      pose proof R as R'. destruct R as (l & R).
      destruct (in_rep B (fst y) r) eqn:X; symmetry.
      - apply (ranged_in r a n _ R') in X. apply Nat.leb_le. lia.
      - apply Nat.leb_gt. apply not_true_iff_false in X. destruct (Nat.lt_ge_cases (a + n - 1) (fst y)) as [Z|Z]; [exact Z|].
        exfalso. apply X. apply (ranged_in r a n _ R'). destruct R as (_ & _ & Z1 & _). lia. }
    assert (L : length c <= rep_len B r).
    { rewrite F. rewrite (filter_prefix (a + n - 1) (firstn (rep_len B r) txns)) by (apply inc_firstn; exact I).
      rewrite firstn_length. rewrite firstn_length. lia. }
    transitivity (firstn (length c) (firstn (rep_len B r) txns)).
    - rewrite F. apply filter_prefix. apply inc_firstn. exact I.
    - rewrite firstn_firstn. f_equal. lia.
  Qed.

  (** ** Adding *)
  Lemma PI_add s C y x : PI s C -> t_seq y = Some (S (length C)) -> transform x = Ok y ->
    exists p mi ws, (z <- transform x ;; p_add H B ser_log ser_tree (s_led B s) z) = Ok (mi, p, ws) /\
      PInv p (mkLst (C ++ [y]) [] false).
  Proof.
    intros (LI & U & SQ & TT & UT & UR) Y E. rewrite E. cbn [bind]. unfold p_add. rewrite Y.
    destruct (base_add_ok H B ser_log ser_tree _ _ y LI) as (l' & ws & EB & LI' & _). cbn [committed] in *. rewrite EB. cbn [bind].
    eexists _, _, _. split; [reflexivity|]. split; [exact LI'|]. split; [exact U|]. split; [|split; [reflexivity|split; assumption]].
    intros i z N. cbn [committed uncommitted] in N. rewrite app_nil_r in N.
    destruct (Nat.lt_ge_cases i (length C)) as [L|L].
    - rewrite nth_error_app1 in N by exact L. apply SQ. cbn. rewrite app_nil_r. exact N.
    - rewrite nth_error_app2 in N by exact L. destruct (i - length C) as [|j] eqn:Ej.
      + simpl in N. injection N as <-. rewrite Y. f_equal. lia.
      + destruct j; discriminate.
  Qed.

  Definition added_entries (n : nat) (txns : list (nat * txn B)) : list (entry B) :=
    map (fun '(i, x) => LAdded B i (snd x)) (combine (seq n (length txns)) txns).

  Lemma add_txns_ok txns : forall s C ys, PI s C -> mapM transform (map snd txns) = Ok ys ->
    (forall i y, nth_error ys i = Some y -> t_seq y = Some (S (length C + i))) ->
    exists s', add_txns txns s = (s', Ok tt) /\ PI s' (C ++ ys) /\
      s_working B s' = s_working B s /\ s_till B s' = s_till B s /\ s_sizes B s' = s_sizes B s /\
      s_wait B s' = s_wait B s /\ s_replies B s' = s_replies B s /\ s_received B s' = s_received B s /\
      s_log B s' = s_log B s ++ added_entries (length C) txns.
  Proof.
    induction txns as [|(n, x) txns IH]; intros s C ys P E SQ.
    - simpl in E. injection E as <-. exists s. rewrite app_nil_r. unfold added_entries. simpl. rewrite app_nil_r.
      split; [reflexivity|]. split; [exact P|]. auto 10.
    - cbn [map snd mapM] in E. destruct (transform x) as [y|] eqn:T; [|discriminate]. cbn [bind] in E.
      destruct (mapM transform (map snd txns)) as [ys'|] eqn:M; [|discriminate]. cbn [bind] in E. injection E as <-.
      pose proof (SQ 0 y eq_refl) as Y. rewrite Nat.add_0_r in Y.
      destruct (PI_add s C y x P Y T) as (p & mi & ws & EA & P'). cbn [Catchup_Model.add_txns]. rewrite EA.
      set (s1 := emit B (LAdded B (csize B s) x) (with_led B p s)).
      destruct (IH s1 (C ++ [y]) ys') as (s' & E' & Q & F1 & F2 & F3 & F4 & F5 & F6 & F7).
      + exact P'.
      + reflexivity.
      + intros i z N. rewrite app_length. simpl. rewrite <- (SQ (S i) z N) || idtac. pose proof (SQ (S i) z N) as Z.
        rewrite Z. f_equal. lia.
      + exists s'. split; [exact E'|]. rewrite <- app_assoc in Q. split; [exact Q|].
        split; [exact F1|]. split; [exact F2|]. split; [exact F3|]. split; [exact F4|]. split; [exact F5|]. split; [exact F6|].
        rewrite F7. unfold s1. cbn [s_log emit with_led]. rewrite <- app_assoc. f_equal.
        rewrite (PI_size s C P). unfold added_entries. cbn [length seq combine map snd app]. f_equal.
        rewrite app_length. simpl. rewrite Nat.add_1_r. reflexivity.
  Qed.

  (** ** The check *)
  Lemma has_valid_ok s C seq_no txns node k ok : PI s C -> has_valid s seq_no txns = Ok (ok, node, k) ->
    exists r t ys, find_reply B seq_no (s_replies B s) = Some (node, r) /\ s_till B s = Some t /\
      mapM transform (map snd (filter (fun x => in_rep B (fst x) r) (firstn (rep_len B r) txns))) = Ok ys /\
      length ys = k /\
      (ok = true <-> exists h proof, t_hash t = Some h /\ r_proof B r = Some proof /\
        verify_tree_consistency H (length (C ++ ys)) (t_final t) (mthh H (lhs (C ++ ys))) h proof = Ok tt).
  Proof.
    intros P. unfold has_valid_catchup_replies.
    destruct (find_reply B seq_no (s_replies B s)) as [(node', r)|]; [|destruct (s_till B s); discriminate].
    destruct (s_till B s) as [t|]; [|discriminate].
    destruct (mapM transform _) as [ys|] eqn:M; [|discriminate]. cbn [bind].
    unfold treeWithAppliedTxns.
    destruct (tree_appends_ok H B ser_tree ys _ C (PI_tree s C P)) as (t' & ET & TT). rewrite ET. cbn [bind].
    rewrite (TreeOf_root H _ _ TT). cbn [bind]. destruct TT as [TS _]. rewrite TS, lhs_length.
    intros E. injection E as E <- <-. exists r, t, ys. split; [reflexivity|]. split; [reflexivity|]. split; [exact M|].
    split; [reflexivity|]. destruct (t_hash t) as [h|]; destruct (r_proof B r) as [pr|].
    - destruct (verify_tree_consistency H (length (C ++ ys)) (t_final t) (mthh H (lhs (C ++ ys))) h pr) as [[]|e] eqn:V; subst ok.
      + split; [|reflexivity]. intros _. exists h, pr. auto.
      + split; [discriminate|]. intros (h' & pr' & A1 & A2 & A3). injection A1 as <-. injection A2 as <-. congruence.
    - subst ok. split; [discriminate|]. intros (h' & pr' & A1 & A2 & A3). discriminate.
    - subst ok. split; [discriminate|]. intros (h' & pr' & A1 & A2 & A3). discriminate.
    - subst ok. split; [discriminate|]. intros (h' & pr' & A1 & A2 & A3). discriminate.
  Qed.

  (** ** Safety *)
  Notation added_of := (added_of B).
  Notation Announced := (Announced B transform).

  Lemma added_of_app a b : added_of (a ++ b) = added_of a ++ added_of b.
  Proof. unfold added_of. apply flat_map_app. Qed.
  Lemma mapM_app {X Y} (f : X -> res Y) a b ya yb : mapM f a = Ok ya -> mapM f b = Ok yb -> mapM f (a ++ b) = Ok (ya ++ yb).
  Proof.
    revert ya. induction a as [|x a IH]; simpl; intros ya E1 E2; [injection E1 as <-; exact E2|].
    destruct (f x) as [y|]; [|discriminate]. cbn [bind] in *. destruct (mapM f a) as [ys|]; [|discriminate].
    cbn [bind] in *. injection E1 as <-. rewrite (IH ys eq_refl E2). reflexivity.
  Qed.
  Lemma mapM_length {X Y} (f : X -> res Y) a ya : mapM f a = Ok ya -> length ya = length a.
  Proof.
    revert ya. induction a as [|x a IH]; simpl; intros ya E; [injection E as <-; reflexivity|].
    destruct (f x) as [y|]; [|discriminate]. cbn [bind] in *. destruct (mapM f a) as [ys|]; [|discriminate].
    cbn [bind] in *. injection E as <-. simpl. f_equal. apply IH. reflexivity.
  Qed.
  Lemma Announced_nil C l : added_of l = [] -> Announced C l C.
  Proof. intros E. exists []. rewrite app_nil_r, E. auto. Qed.
  Lemma Announced_app C l C' l' C'' : Announced C l C' -> Announced C' l' C'' -> Announced C (l ++ l') C''.
  Proof.
    intros (y1 & -> & M1 & S1) (y2 & -> & M2 & S2). exists (y1 ++ y2). rewrite app_assoc. split; [reflexivity|].
    rewrite added_of_app, !map_app. split; [apply mapM_app; assumption|]. rewrite S1, S2, !app_length, seq_app. reflexivity.
  Qed.
  Lemma added_of_entries txns : forall n, added_of (added_entries n txns) = combine (seq n (length txns)) (map snd txns).
  Proof.
    unfold added_entries. induction txns as [|(k, x) txns IH]; intros n; [reflexivity|].
    cbn [length seq combine map added_of flat_map snd app]. f_equal. apply IH.
  Qed.
  Lemma Announced_entries C txns ys : mapM transform (map snd txns) = Ok ys ->
    Announced C (added_entries (length C) txns) (C ++ ys).
  Proof.
    intros M. exists ys. split; [reflexivity|]. rewrite added_of_entries.
    assert (L : length (seq (length C) (length txns)) = length (map snd txns)) by (rewrite seq_length, map_length; reflexivity).
    assert (G : forall (a : list nat) (b : list (txn B)), length a = length b -> map fst (combine a b) = a /\ map snd (combine a b) = b).
    { induction a as [|z a IH]; intros [|w b]; simpl; intros E; try discriminate; [auto|]. injection E as E.
      destruct (IH b E) as [-> ->]. auto. }
    destruct (G _ _ L) as [G1 G2]. rewrite G1, G2. split; [exact M|]. rewrite (mapM_length _ _ _ M), map_length. reflexivity.
  Qed.

  Notation prefix := (prefix B).
  Lemma prefix_refl a : prefix a a. Proof. exists []. rewrite app_nil_r. reflexivity. Qed.
  Lemma prefix_trans a b c : prefix a b -> prefix b c -> prefix a c.
  Proof. intros (r1 & ->) (r2 & ->). exists (r1 ++ r2). rewrite app_assoc. reflexivity. Qed.
  Lemma prefix_firstn a n : prefix (firstn n a) a.
  Proof. exists (skipn n a). symmetry. apply firstn_skipn. Qed.
  Lemma prefix_length a b : prefix a b -> length a <= length b.
  Proof. intros (r & ->). rewrite app_length. lia. Qed.
  Lemma prefix_eq a b : prefix a b -> a = firstn (length a) b.
  Proof. intros (r & ->). rewrite firstn_app, Nat.sub_diag, firstn_all. cbn. rewrite app_nil_r. reflexivity. Qed.

  Variable L : list (txn B).
  Hypothesis FL : FixedLength H.
  Hypothesis inj : forall x y, ser_tree x = ser_tree y -> x = y.
  Hypothesis numbered_L : forall i x, nth_error L i = Some x -> t_seq x = Some (S i).

  (** the target is a stretch of the agreed ledger *)
  Notation good_till := (good_till H B ser_tree L).

  Lemma MTH_lhs C : MTH H (map ser_tree C) (mthh H (lhs C)).
  Proof. unfold Ledger_Proofs.lhs. rewrite <- (map_map ser_tree (hash_leaf H)). apply mthh_MTH. Qed.
  Lemma map_inj_prefix C D rest : map ser_tree D = map ser_tree C ++ rest -> prefix C D.
  Proof.
    revert D. induction C as [|x C IH]; intros D E; [exists D; reflexivity|].
    destruct D as [|y D]; [discriminate|]. injection E as E1 E2. apply inj in E1. subst y.
    destruct (IH D E2) as (r & ->). exists r. reflexivity.
  Qed.
  Lemma check_sound C t h proof : good_till t -> t_hash t = Some h ->
    verify_tree_consistency H (length C) (t_final t) (mthh H (lhs C)) h proof = Ok tt ->
    (exists c, Collision H c) \/ prefix C (firstn (t_final t) L).
  Proof.
    intros (GL & h' & E & M) E' V. rewrite E' in E. injection E as <-.
    assert (LN : t_final t = length (map ser_tree (firstn (t_final t) L))) by (rewrite map_length, firstn_length; lia).
    rewrite LN in V at 1. rewrite <- (map_length ser_tree C) in V.
    destruct (C05_consistency_sound H FL (map ser_tree C) (map ser_tree (firstn (t_final t) L)) _ _ _ (MTH_lhs C) M V) as [(c & Hc)|E2].
    - left. exists c. exact Hc.
    - right. destruct E2 as (rest & E2). exact (map_inj_prefix _ _ _ E2).
  Qed.

  Definition same_rest (s s' : st) : Prop :=
    s_working B s' = s_working B s /\ s_till B s' = s_till B s /\ s_sizes B s' = s_sizes B s /\
    s_wait B s' = s_wait B s /\ s_received B s' = s_received B s.
  Definition quiet_entry (e : entry B) : Prop := match e with LAdded _ _ _ => True | LBlack _ _ => True | _ => False end.

  Lemma quiet_added txns n : Forall quiet_entry (added_entries n txns).
  Proof. apply Forall_forall. intros e I. unfold added_entries in I. apply in_map_iff in I as ((i, x) & <- & _). exact Logic.I. Qed.

  (** the outcome of a run of the loop *)
  Definition outcome (s : st) (C : list (txn B)) (t : till) (s' : st) : Prop :=
    exists C' es, PI s' C' /\ prefix C' L /\ (C' = C \/ length C' <= t_final t) /\ stored s' /\ same_rest s s' /\
      s_log B s' = s_log B s ++ es /\ Announced C es C' /\ Forall quiet_entry es.

  Lemma loop_safe t : good_till t -> forall fuel txns num s C,
    PI s C -> prefix C L -> s_till B s = Some t -> stored s -> inc txns ->
    (exists c, Collision H c) \/ outcome s C t (fst (process_loop fuel txns num s)).
  Proof.
    intros G. assert (NIL : forall s C, PI s C -> prefix C L -> stored s -> outcome s C t s).
    { intros s C P Px ST. exists C, []. rewrite app_nil_r. split; [exact P|]. split; [exact Px|]. split; [auto|].
      split; [exact ST|]. split; [repeat split|]. split; [reflexivity|]. split; [apply Announced_nil; reflexivity|constructor]. }
    induction fuel as [|fuel IH]; intros txns num s C P Px T ST I; cbn [Catchup_Model.process_loop].
    - right. apply NIL; assumption.
    - destruct txns as [|(seq_no, x0) rest] eqn:Et; [right; apply NIL; assumption|]. rewrite <- Et in *.
      destruct (seq_no =? l_seqNo (p_base (s_led B s)) + 1) eqn:Eq; [|right; apply NIL; assumption].
      destruct (has_valid s seq_no txns) as [((ok, node), k)|e] eqn:HV; [|right; apply NIL; assumption].
      destruct (has_valid_ok _ _ _ _ _ _ _ P HV) as (r & t' & ys & F & T' & M & Lk & V).
      rewrite T in T'. injection T' as <-.
      destruct (find_reply_in _ _ _ _ F) as (reps & I1 & I2 & I3).
      destruct (ST _ _ _ I1 I2) as (a & n & R).
      pose proof (proj1 (ranged_in _ _ _ _ R) I3) as R3.
      pose proof (checked_prefix r a n txns seq_no x0 rest R I Et (proj1 R3)) as CP. cbv zeta in CP.
      assert (LC : length (filter (fun x => in_rep B (fst x) r) (firstn (rep_len B r) txns)) = k).
      { rewrite <- Lk. rewrite (mapM_length _ _ _ M), map_length. reflexivity. }
      rewrite LC in CP. rewrite CP in M.
      destruct ok.
      + destruct (proj1 V eq_refl) as (h & proof & Eh & Ep & VV).
        destruct (check_sound _ _ _ _ G Eh VV) as [Coll|PX]; [left; exact Coll|].
        pose proof (prefix_trans _ _ _ PX (prefix_firstn L (t_final t))) as PL.
        assert (SQ : forall i y, nth_error ys i = Some y -> t_seq y = Some (S (length C + i))).
        { intros i y N. apply numbered_L. destruct PL as (rr & ->). rewrite <- app_assoc.
          rewrite nth_error_app2 by lia. replace (length C + i - length C) with i by lia.
          rewrite nth_error_app1; [exact N|]. apply nth_error_Some. congruence. }
        destruct (add_txns_ok _ _ _ _ P M SQ) as (s1 & EA & P1 & A1 & A2 & A3 & A4 & A5 & A6 & A7).
        rewrite EA. set (s2 := remove_processed B node seq_no s1).
        destruct (IH (skipn k txns) (num + k) s2 (C ++ ys)) as [Coll|O].
        * exact P1.
        * exact PL.
        * unfold s2. cbn. rewrite A2. exact T.
        * apply stored_remove. unfold stored. rewrite A5. exact ST.
        * apply inc_skipn. exact I.
        * left. exact Coll.
        * right. destruct O as (C' & es & B1 & B2 & B3 & B4 & B5 & B6 & B7 & B8).
          exists C', (added_entries (length C) (firstn k txns) ++ es). split; [exact B1|]. split; [exact B2|]. split.
          { right. destruct B3 as [->|B3]; [|exact B3]. pose proof (prefix_length _ _ PX) as Z.
            rewrite firstn_length in Z. lia. }
          split; [exact B4|]. split.
          { destruct B5 as (D1 & D2 & D3 & D4 & D5). cbn in D1, D2, D3, D4, D5.
            split; [congruence|]. split; [congruence|]. split; [congruence|]. split; congruence. }
          split; [rewrite B6; cbn; rewrite A7, app_assoc; reflexivity|]. split.
          { eapply Announced_app; [apply Announced_entries; exact M|exact B7]. }
          { apply Forall_app. split; [apply quiet_added|exact B8]. }
      + right. exists C, [LBlack B node]. split; [exact P|]. split; [exact Px|]. split; [auto|].
        split; [apply stored_remove; exact ST|]. split; [repeat split|]. split; [reflexivity|].
        split; [apply Announced_nil; reflexivity|]. constructor; [exact Logic.I|constructor].
  Qed.

  (** ** Requests leave the rest alone *)
  Definition request_entry (e : entry B) : Prop := match e with LReq _ _ _ => True | _ => False end.
  Definition only_wait (s s' : st) : Prop :=
    s_led B s' = s_led B s /\ s_working B s' = s_working B s /\ s_till B s' = s_till B s /\ s_sizes B s' = s_sizes B s /\
    s_replies B s' = s_replies B s /\ s_received B s' = s_received B s.
  Lemma only_wait_trans a b c : only_wait a b -> only_wait b c -> only_wait a c.
  Proof.
    intros (A1 & A2 & A3 & A4 & A5 & A6) (B1 & B2 & B3 & B4 & B5 & B6).
    repeat split; congruence.
  Qed.
  Definition sends (s s' : st) : Prop := only_wait s s' /\ exists es, s_log B s' = s_log B s ++ es /\ Forall request_entry es.
  Lemma sends_refl s : sends s s.
  Proof. split; [repeat split|]. exists []. rewrite app_nil_r. split; [reflexivity|constructor]. Qed.
  Lemma sends_trans a b c : sends a b -> sends b c -> sends a c.
  Proof.
    intros (A1 & e1 & A2 & A3) (B1 & e2 & B2 & B3). split; [eapply only_wait_trans; eassumption|].
    exists (e1 ++ e2). rewrite B2, A2, app_assoc. split; [reflexivity|]. apply Forall_app. auto.
  Qed.
  Lemma send_sends sh eligible frm to s : sends s (fst (send_catchup_reqs B batch sh eligible frm to s)).
  Proof.
    unfold send_catchup_reqs. destruct (s_till B s) as [t|]; [|apply sends_refl]. destruct (s_sizes B s) as [sz|]; [|apply sends_refl].
    destruct (build_catchup_reqs _ _ _ _ _ _) as [reqs|]; [|apply sends_refl]. simpl. clear.
    revert s. induction reqs as [|(n, r) reqs IH]; intros s; [apply sends_refl|]. simpl.
    eapply sends_trans; [|apply IH]. split; [repeat split|]. exists [LReq B n r]. split; [reflexivity|].
    constructor; [exact Logic.I|constructor].
  Qed.
  Lemma gaps_sends sh eligible txns : forall k last_seen m s,
    sends s (fst (request_gaps B batch sh k eligible txns last_seen m s)).
  Proof.
    induction txns as [|(n, x) txns IH]; intros k last_seen m s; cbn [request_gaps]; [apply sends_refl|].
    destruct (n =? last_seen + 1); [apply IH|].
    pose proof (send_sends (sh k) eligible (last_seen + 1) (n - 1) s) as SS.
    destruct (send_catchup_reqs B batch (sh k) eligible (last_seen + 1) (n - 1) s) as [s' [j|e]]; [|exact SS].
    eapply sends_trans; [exact SS|apply IH].
  Qed.
  Definition timer_entry (e : entry B) : Prop := match e with LReq _ _ _ | LTimer _ | LRaise _ _ => True | _ => False end.
  Lemma timer_frame eligible sh s : let s' := request_txns_if_needed B batch eligible sh s in
    only_wait s s' /\ exists es, s_log B s' = s_log B s ++ es /\ Forall timer_entry es.
  Proof.
    cbv zeta. assert (Z : only_wait s s /\ exists es, s_log B s = s_log B s ++ es /\ Forall timer_entry es).
    { split; [repeat split|]. exists []. rewrite app_nil_r. split; [reflexivity|constructor]. }
    unfold request_txns_if_needed. destruct (s_working B s); cbn [negb]; [|exact Z]. destruct (num_missing B s =? 0); [exact Z|].
    set (el := if forallb _ _ then _ else _). set (s0 := with_wait B [] s).
    assert (Z0 : only_wait s s0 /\ exists es, s_log B s0 = s_log B s ++ es /\ Forall timer_entry es).
    { split; [repeat split|]. exists []. rewrite app_nil_r. split; [reflexivity|constructor]. }
    assert (UP : forall s1 e, sends s0 s1 -> timer_entry e -> only_wait s (emit B e s1) /\
       exists es, s_log B (emit B e s1) = s_log B s ++ es /\ Forall timer_entry es).
    { intros s1 e (A1 & es & A2 & A3) T. split.
      - eapply only_wait_trans; [exact (proj1 Z0)|]. exact A1.
      - exists (es ++ [e]). cbn [s_log emit]. rewrite A2. cbn [s_log s0 with_wait]. rewrite <- app_assoc. split; [reflexivity|].
        apply Forall_app. split; [|constructor; [exact T|constructor]]. revert A3. apply Forall_impl. intros [] X; exact X || exact Logic.I. }
    destruct el as [|n0 el']; [exact Z0|]. set (el := n0 :: el').
    destruct (s_till B s0) as [t|]; [|exact Z0].
    pose proof (gaps_sends sh el (s_received B s0) 0 (csize B s0) (Z.of_nat (num_missing B s0)) s0) as G.
    destruct (request_gaps B batch sh 0 el (s_received B s0) (csize B s0) (Z.of_nat (num_missing B s0)) s0)
      as [s1 [((k, last_seen), m)|e]]; [|apply UP; [exact G|exact Logic.I]].
    simpl fst in G. destruct (0 <? m)%Z; [|apply UP; [exact G|exact Logic.I]].
    destruct ((last_seen =? csize B s1) || negb (last_seen =? t_final t)); [|apply UP; [exact G|exact Logic.I]].
    pose proof (send_sends (sh k) el (last_seen + 1) (t_final t) s1) as G2.
    destruct (send_catchup_reqs B batch (sh k) el (last_seen + 1) (t_final t) s1) as [s2 [j|e]];
      (apply UP; [eapply sends_trans; [exact G|exact G2]|exact Logic.I]).
  Qed.

  (** ** Every history *)
  Notation op_ok := (op_ok H B ser_tree L).

  Definition SInv (C0 : list (txn B)) (s : st) : Prop :=
    exists C, PI s C /\ prefix C0 C /\ prefix C L /\ stored s /\ inc (s_received B s) /\ Announced C0 (s_log B s) C /\
      (s_working B s = true -> exists t, s_till B s = Some t /\ good_till t /\ length C <= t_final t).

  Lemma Announced_silent C0 l C es : Announced C0 l C -> added_of es = [] -> Announced C0 (l ++ es) C.
  Proof. intros A E. eapply Announced_app; [exact A|]. apply Announced_nil. exact E. Qed.
  Lemma silent_timer es : Forall timer_entry es -> added_of es = [].
  Proof. induction es as [|e es IH]; intros F; [reflexivity|]. inversion F as [|? ? F1 F2]; subst. destruct e; try destruct F1; simpl; auto. Qed.

  Lemma finish_inv C0 s C : PI s C -> prefix C0 C -> prefix C L -> Announced C0 (s_log B s) C -> SInv C0 (finish B s).
  Proof.
    intros P P1 P2 A. exists C. split; [exact P|]. split; [exact P1|]. split; [exact P2|].
    split; [intros frm reps r []|]. split; [exact Logic.I|]. split; [apply Announced_silent; [exact A|reflexivity]|]. discriminate.
  Qed.

  Lemma start_inv C0 s t sizes eligible sh : SInv C0 s -> op_ok (OStart B t sizes eligible sh) ->
    SInv C0 (start B batch t sizes eligible sh s).
  Proof.
    intros (C & P & P1 & P2 & ST & I & A & W) G. unfold start.
    set (s0 := mkSt B (s_led B s) true t sizes (s_wait B s) (s_replies B s) (s_received B s) (s_log B s)).
    assert (P0 : PI s0 C) by exact P.
    destruct t as [t|]; [|eapply finish_inv; [exact P0|exact P1|exact P2|exact A]].
    destruct (Nat.leb_spec (t_final t) (csize B s0)) as [Ls|Ls]; [eapply finish_inv; [exact P0|exact P1|exact P2|exact A]|].
    rewrite (PI_size _ _ P0) in Ls. cbn [op_ok] in G.
    assert (KEEP : forall s1, sends s0 s1 -> forall e, added_of [e] = [] -> SInv C0 (emit B e s1)).
    { intros s1 ((B1 & B2 & B3 & B4 & B5 & B6) & es & B7 & B8) e E. exists C.
      split; [unfold PI; cbn [s_led emit]; rewrite B1; exact P0|]. split; [exact P1|]. split; [exact P2|].
      split; [unfold stored; cbn [s_replies emit]; rewrite B5; exact ST|]. split; [cbn [s_received emit]; rewrite B6; exact I|].
      split.
      - cbn [s_log emit]. rewrite B7, <- app_assoc. apply Announced_silent; [exact A|]. rewrite added_of_app.
        replace (added_of es) with (@nil (nat * txn B)); [exact E|]. symmetry. apply silent_timer. revert B8. apply Forall_impl.
        intros [] X; exact X || exact Logic.I.
      - intros _. exists t. cbn [s_till emit]. rewrite B3. split; [reflexivity|]. split; [exact G|lia]. }
    destruct eligible as [|n0 el].
    - exists C. split; [exact P0|]. split; [exact P1|]. split; [exact P2|]. split; [exact ST|]. split; [exact I|]. split; [exact A|].
      intros _. exists t. split; [reflexivity|]. split; [exact G|lia].
    - pose proof (send_sends (sh 0) (n0 :: el) (t_start t + 1) (t_final t) s0) as SS.
      destruct (send_catchup_reqs B batch (sh 0) (n0 :: el) (t_start t + 1) (t_final t) s0) as [s1 [j|e]];
        (apply KEEP; [exact SS|reflexivity]).
  Qed.

  Lemma timer_inv C0 s eligible sh : SInv C0 s -> SInv C0 (request_txns_if_needed B batch eligible sh s).
  Proof.
    intros (C & P & P1 & P2 & ST & I & A & W). pose proof (timer_frame eligible sh s) as TF. cbv zeta in TF.
    destruct TF as ((B1 & B2 & B3 & B4 & B5 & B6) & es & B7 & B8).
    exists C. split; [unfold PI; rewrite B1; exact P|]. split; [exact P1|]. split; [exact P2|].
    split; [unfold stored; rewrite B5; exact ST|]. split; [rewrite B6; exact I|].
    split; [rewrite B7; apply Announced_silent; [exact A|apply silent_timer; exact B8]|].
    rewrite B2, B3. exact W.
  Qed.

  (** what a reply does: nothing bad, and completion only with the agreed ledger *)
  Lemma rep_inv C0 s r frm : SInv C0 s -> canonical r ->
    (exists c, Collision H c) \/
    (SInv C0 (process_catchup_rep r frm s) /\
     (s_working B s = true -> s_working B (process_catchup_rep r frm s) = false ->
      exists t, s_till B s = Some t /\ good_till t /\ PI (process_catchup_rep r frm s) (firstn (t_final t) L) /\
        exists l, s_log B (process_catchup_rep r frm s) = l ++ [LComplete B (t_final t - t_start t)])).
  Proof.
    intros SI CA. pose proof SI as (C & P & P1 & P2 & ST & I & A & W).
    unfold Catchup_Model.process_catchup_rep.
    assert (SAME : SInv C0 s /\ (s_working B s = true -> s_working B s = false ->
      exists t, s_till B s = Some t /\ good_till t /\ PI s (firstn (t_final t) L) /\
        exists l, s_log B s = l ++ [LComplete B (t_final t - t_start t)])) by (split; [exact SI|congruence]).
    destruct (negb (r_ledger B r =? lid)); [right; exact SAME|]. destruct (s_working B s) eqn:Ew; cbn [negb]; [|right; split; [exact SI|discriminate]].
    clear SAME. set (s0 := with_wait B _ s). destruct (W eq_refl) as (t & T & G & LT). clear W.
    assert (SI0 : forall e, added_of [e] = [] -> SInv C0 (emit B e s0)).
    { intros e E. exists C. split; [exact P|]. split; [exact P1|]. split; [exact P2|]. split; [exact ST|]. split; [exact I|].
      split; [apply Announced_silent; [exact A|exact E]|]. intros _. exists t. auto. }
    destruct (r_txns B r) as [l|] eqn:Er.
    2:{ right. split; [apply SI0; reflexivity|]. intros _ X. exfalso. cbn in X. congruence. }
    destruct (interesting B (csize B s0) l) as [txns|] eqn:EI.
    2:{ right. split; [apply SI0; reflexivity|]. intros _ X. exfalso. cbn in X. congruence. }
    destruct (interesting_ranged r l _ txns CA Er EI) as (a & L0 & SQ & R & _ & _).
    set (s1 := with_replies B _ s0). set (merged := merge_catchup_txns B (s_received B s1) txns).
    destruct (merged_ok B (s_received B s1) txns a I SQ L0) as [MI _]. fold merged in MI.
    assert (ST1 : stored s1).
    { intros frm' reps r' J1 J2. unfold s1 in J1. cbn [s_replies with_replies] in J1. apply in_set in J1 as [[-> ->]|J1]; [|eapply ST; eauto].
      apply in_app_iff in J2 as [J2|[<-|[]]]; [|eauto]. apply get_or_in in J2 as (l0 & J3 & J4). eapply ST; eauto. }
    unfold Catchup_Model.process_catchup_txns.
    destruct (loop_safe t G (length merged) (skipn (length (filter (fun x => fst x <=? csize B s1) merged)) merged)
      (length (filter (fun x => fst x <=? csize B s1) merged)) s1 C P P2 T ST1 (inc_skipn _ _ MI)) as [Coll|O]; [left; exact Coll|].
    destruct (process_loop _ _ _ s1) as [s2 res]. simpl fst in O.
    destruct O as (C' & es & P' & P2' & LE & ST' & (F1 & F2 & F3 & F4 & F5) & LG & AN & Q).
    assert (P1' : prefix C0 C').
    { destruct AN as (ys & -> & _). eapply prefix_trans; [exact P1|]. exists ys. reflexivity. }
    assert (LT' : length C' <= t_final t) by (destruct LE as [->|LE]; assumption).
    assert (A' : Announced C0 (s_log B s2) C') by (rewrite LG; eapply Announced_app; [exact A|exact AN]).
    destruct res as [num|e].
    - set (s3 := with_received B (skipn num merged) s2).
      assert (T3 : s_till B s3 = Some t) by (cbn; rewrite F2; exact T). rewrite T3.
      assert (P3 : PI s3 C') by exact P'.
      destruct (Nat.leb_spec (t_final t) (csize B s3)) as [Lf|Lf]; right.
      + split; [eapply finish_inv; [exact P3|exact P1'|exact P2'|exact A']|]. intros _ _. exists t.
        split; [exact T|]. split; [exact G|]. split.
        * rewrite (PI_size _ _ P3) in Lf. pose proof (prefix_eq _ _ P2') as E. assert (length C' = t_final t) as E2 by lia.
          rewrite E2 in E. rewrite <- E. exact P3.
        * exists (s_log B s3). unfold finish. rewrite T3. reflexivity.
      + split.
        * exists C'. split; [exact P3|]. split; [exact P1'|]. split; [exact P2'|]. split; [exact ST'|].
          split; [apply inc_skipn; exact MI|]. split; [exact A'|]. intros _. exists t. auto.
        * intros _ X. exfalso. cbn in X. rewrite F1 in X. cbn in X. congruence.
    - right. split.
      + exists C'. split; [exact P'|]. split; [exact P1'|]. split; [exact P2'|]. split; [exact ST'|].
        split; [cbn [s_received emit]; rewrite F5; exact I|]. split; [apply Announced_silent; [exact A'|reflexivity]|].
        intros _. exists t. cbn [s_till emit]. rewrite F2. auto.
      + intros _ X. exfalso. cbn in X. rewrite F1 in X. cbn in X. congruence.
  Qed.

  Notation run := (run H B ser_log ser_tree transform batch lid).
  Lemma run_inv C0 os : forall s, SInv C0 s -> Forall op_ok os -> (exists c, Collision H c) \/ SInv C0 (run os s).
  Proof.
    induction os as [|o os IH]; intros s SI F; [right; exact SI|]. inversion F as [|? ? F1 F2]; subst.
    change (run (o :: os) s) with (run os (step H B ser_log ser_tree transform batch lid s o)).
    destruct o as [t sizes eligible sh|r frm|eligible sh]; cbn [step].
    - apply IH; [|exact F2]. apply start_inv; assumption.
    - destruct (rep_inv C0 s r frm SI F1) as [Coll|[SI' _]]; [left; exact Coll|]. apply IH; assumption.
    - apply IH; [|exact F2]. apply timer_inv. exact SI.
  Qed.

  (** ** Honest replies *)
  (** a reply for transactions [a .. a+n-1] of the agreed ledger, with a proof that the
      verifier accepts *)
  Notation honest := (honest H B ser_tree transform lid L).

  Lemma has_valid_eq s C seq_no txns node r t ys : PI s C ->
    find_reply B seq_no (s_replies B s) = Some (node, r) -> s_till B s = Some t ->
    mapM transform (map snd (filter (fun x => in_rep B (fst x) r) (firstn (rep_len B r) txns))) = Ok ys ->
    has_valid s seq_no txns = Ok (match t_hash t, r_proof B r with
      | Some h, Some proof =>
        match verify_tree_consistency H (length (C ++ ys)) (t_final t) (mthh H (lhs (C ++ ys))) h proof with
        | Ok _ => true | Err _ => false end
      | _, _ => false end, node, length ys).
  Proof.
    intros P F T M. unfold has_valid_catchup_replies. rewrite F, T, M. cbn [bind]. unfold treeWithAppliedTxns.
    destruct (tree_appends_ok H B ser_tree ys _ C (PI_tree s C P)) as (t' & ET & TT). rewrite ET. cbn [bind].
    rewrite (TreeOf_root H _ _ TT). cbn [bind]. destruct TT as [TS _]. rewrite TS, lhs_length.
    destruct (t_hash t); destruct (r_proof B r); reflexivity.
  Qed.

  Lemma inc_cover (txns : list (nat * txn B)) : forall m b, inc txns -> (forall x, In x txns -> m <= fst x) ->
    (forall i, m <= i <= b -> In i (map fst txns)) ->
    map fst (filter (fun x => fst x <=? b) txns) = seq m (S b - m).
  Proof.
    induction txns as [|x txns IH]; intros m b I LO CV.
    - cbn [filter map]. destruct (S b - m) eqn:E; [reflexivity|]. destruct (CV m); lia.
    - destruct I as [I1 I2]. cbn [filter]. destruct (Nat.leb_spec (fst x) b) as [Lb|Lb].
      + assert (fst x = m) as E.
        { pose proof (LO x (or_introl eq_refl)). destruct (CV m) as [E|E]; [lia|exact E|].
          apply in_map_iff in E as (y & E & Y). specialize (I1 y Y). lia. }
        cbn [map]. replace (S b - m) with (S (S b - S m)) by lia. cbn [seq]. rewrite E. f_equal.
        apply IH; [exact I2| |].
        * intros y Y. specialize (I1 y Y). lia.
        * intros i Hi. destruct (CV i) as [E'|E']; [lia|lia|exact E'].
      + assert (S b - m = 0) as ->.
        { destruct (S b - m) eqn:E; [reflexivity|]. exfalso. destruct (CV m) as [E'|E']; [lia|lia|].
          apply in_map_iff in E' as (y & E' & Y). specialize (I1 y Y). lia. }
        assert (F : filter (fun y => fst y <=? b) txns = []).
        { clear IH LO CV I2. induction txns as [|y txns IH]; [reflexivity|]. simpl. pose proof (I1 y (or_introl eq_refl)).
          destruct (Nat.leb_spec (fst y) b); [lia|]. apply IH. intros z Z. apply I1. simpl. auto. }
        rewrite F. reflexivity.
  Qed.

  Lemma content_ok (c : list (nat * txn B)) : forall m, 1 <= m -> map fst c = seq m (length c) ->
    (forall k x, In (k, x) c -> exists y, nth_error L (k - 1) = Some y /\ transform x = Ok y) ->
    mapM transform (map snd c) = Ok (firstn (length c) (skipn (m - 1) L)).
  Proof.
    induction c as [|(k, x) c IH]; intros m Hm SQ CT; [reflexivity|]. cbn [map fst length seq] in SQ. injection SQ as -> SQ.
    destruct (CT m x (or_introl eq_refl)) as (y & N & T). cbn [map snd mapM]. rewrite T. cbn [bind].
    rewrite (IH (S m)); [|lia|exact SQ|intros k' x' J; apply CT; right; exact J]. cbn [bind length].
    assert (E : skipn (m - 1) L = y :: skipn (S m - 1) L).
    { apply nth_error_split in N as (l1 & l2 & EL & LL). rewrite EL. rewrite !skipn_app, LL, Nat.sub_diag.
      rewrite (skipn_all2 (n := m - 1)) by lia. rewrite (skipn_all2 (n := S m - 1)) by lia.
      replace (S m - 1 - (m - 1)) with 1 by lia. reflexivity. }
    rewrite E. reflexivity.
  Qed.

  Lemma find_reply_some n d frm reps r : In (frm, reps) d -> In r reps -> in_rep B n r = true -> exists x, find_reply B n d = Some x.
  Proof.
    intros I J E. induction d as [|(f, rs) d IH]; [destruct I|]. simpl.
    destruct (find (in_rep B n) rs) as [r'|] eqn:F; [eauto|]. destruct I as [I|I]; [|auto]. injection I as -> ->.
    exfalso. pose proof (find_none _ _ F r J). congruence.
  Qed.
  Lemma find_remove n d frm r : NoDup (map fst d) -> find_reply B n d = Some (frm, r) ->
    exists l1 l2, get_or frm [] d = l1 ++ r :: l2 /\ remove_first B n (get_or frm [] d) = l1 ++ l2.
  Proof.
    intros ND F.
    assert (X : exists reps, In (frm, reps) d /\ find (in_rep B n) reps = Some r).
    { clear ND. induction d as [|(f, rs) d IH]; [discriminate|]. simpl in F. destruct (find (in_rep B n) rs) as [r'|] eqn:E.
      - injection F as -> ->. exists rs. simpl. auto.
      - destruct (IH F) as (reps & I & E'). exists reps. simpl. auto. }
    assert (RC : forall x reps, reps <> [] -> remove_first B n (x :: reps) = if in_rep B n x then reps else x :: remove_first B n reps).
    { intros x [|y w] Z; [congruence|reflexivity]. }
    destruct X as (reps & I & E). unfold get_or. rewrite (in_get _ _ _ ND I). clear -E RC.
    induction reps as [|x reps IH]; [discriminate|]. simpl in E. destruct (in_rep B n x) eqn:Ex.
    - injection E as ->. exists [], reps. split; [reflexivity|]. cbn [remove_first]. destruct reps; [reflexivity|]. rewrite Ex. reflexivity.
    - destruct (IH E) as (l1 & l2 & E1 & E2). exists (x :: l1), l2. rewrite E1. split; [reflexivity|].
      rewrite RC by (destruct l1; discriminate). rewrite Ex, <- E1, E2. reflexivity.
  Qed.

  (** [frm]'s stored reply [r] *)
  Definition has_reply (s : st) (r : rep) : Prop := exists frm reps, In (frm, reps) (s_replies B s) /\ In r reps.
  (** everything stored is honest and waits among [txns], and [txns] have their replies *)
  Definition waiting (t : till) (s : st) (C : list (txn B)) (txns : list (nat * txn B)) : Prop :=
    NoDup (map fst (s_replies B s)) /\ inc txns /\
    (forall k x, In (k, x) txns -> length C < k /\ (exists y, nth_error L (k - 1) = Some y /\ transform x = Ok y) /\
       exists r, has_reply s r /\ in_rep B k r = true) /\
    (forall r, has_reply s r -> exists a n, honest t r a n /\
       forall i, a <= i < a + n -> i <= length C \/ In i (map fst txns)).

  Lemma loop_live t : good_till t -> forall fuel txns num s C,
    length txns <= fuel -> PI s C -> prefix C L -> length C <= t_final t -> s_till B s = Some t -> waiting t s C txns ->
    exists s' k C' es, process_loop fuel txns num s = (s', Ok (num + k)) /\
      PI s' C' /\ prefix C C' /\ prefix C' L /\ length C' <= t_final t /\ same_rest s s' /\
      waiting t s' C' (skipn k txns) /\ ~ In (S (length C')) (map fst (skipn k txns)) /\
      (forall i, In i (map fst txns) -> i <= length C' \/ In i (map fst (skipn k txns))) /\
      s_log B s' = s_log B s ++ es /\ (forall e, In e es -> exists n x, e = LAdded B n x).
  Proof.
    intros G. induction fuel as [|fuel IH]; intros txns num s C LF P PL LT T W.
    - destruct txns; [|simpl in LF; lia]. exists s, 0, C, []. rewrite Nat.add_0_r, app_nil_r. split; [reflexivity|].
      split; [exact P|]. split; [apply prefix_refl|]. split; [exact PL|]. split; [exact LT|]. split; [repeat split|].
      split; [exact W|]. split; [intros []|]. split; [intros i []|]. split; [reflexivity|intros e []].
    - cbn [Catchup_Model.process_loop].
      assert (STOP : ~ In (S (length C)) (map fst txns) ->
        exists s' k C' es, (s, Ok num) = (s', Ok (num + k)) /\
        PI s' C' /\ prefix C C' /\ prefix C' L /\ length C' <= t_final t /\ same_rest s s' /\
        waiting t s' C' (skipn k txns) /\ ~ In (S (length C')) (map fst (skipn k txns)) /\
        (forall i, In i (map fst txns) -> i <= length C' \/ In i (map fst (skipn k txns))) /\
        s_log B s' = s_log B s ++ es /\ (forall e, In e es -> exists n x, e = LAdded B n x)).
      { intros N. exists s, 0, C, []. rewrite Nat.add_0_r, app_nil_r. split; [reflexivity|].
        split; [exact P|]. split; [apply prefix_refl|]. split; [exact PL|]. split; [exact LT|]. split; [repeat split|].
        split; [exact W|]. split; [exact N|]. split; [auto|]. split; [reflexivity|intros e []]. }
      destruct txns as [|(seq_no, x0) rest] eqn:Et; [apply STOP; intros []|]. rewrite <- Et in *.
      pose proof W as (ND & I & CT & HR).
      rewrite (PI_seqNo _ _ P). destruct (Nat.eqb_spec seq_no (length C + 1)) as [Es|Es].
      2:{ apply STOP. intros J. apply in_map_iff in J as ((k, x) & E & J). simpl in E. subst k.
          destruct (CT seq_no x0) as (Gs & _); [rewrite Et; left; reflexivity|].
          rewrite Et in J. destruct J as [J|J]; [injection J as -> ->; lia|].
          rewrite Et in I. destruct I as [I _]. specialize (I _ J). simpl in I. lia. }
      clear STOP.
      destruct (CT seq_no x0) as (_ & _ & rr & (f0 & reps0 & J1 & J2) & J3); [rewrite Et; left; reflexivity|].
      destruct (find_reply_some _ _ _ _ _ J1 J2 J3) as ((node, r) & F). clear rr f0 reps0 J1 J2 J3.
      destruct (find_reply_in _ _ _ _ F) as (reps & I1 & I2 & I3).
      destruct (HR r) as (a & n & HO & WT); [exists node, reps; auto|].
      pose proof HO as (_ & R & A1 & AF & _ & (proof & root & h & Ep & Eh & MR & V)).
      pose proof (proj1 (ranged_in _ _ _ _ R) I3) as R3. set (b := a + n - 1) in *.
      assert (LO : forall x, In x txns -> seq_no <= fst x).
      { intros (k, x) J. destruct (CT k x J) as (Gk & _). simpl. lia. }
      assert (CV : forall i, seq_no <= i <= b -> In i (map fst txns)).
      { intros i Hi. destruct (WT i) as [X|X]; [lia|lia|exact X]. }
      pose proof (inc_cover txns seq_no b I LO CV) as IC.
      set (kk := length (filter (fun x => fst x <=? b) txns)).
      assert (KK : kk = S b - seq_no).
      { unfold kk. rewrite <- (map_length fst), IC, seq_length. reflexivity. }
      assert (RL : rep_len B r = n) by (eapply ranged_len; exact R).
      assert (FE : filter (fun x => in_rep B (fst x) r) (firstn (rep_len B r) txns) = filter (fun x => fst x <=? b) txns).
      { assert (E1 : filter (fun x => in_rep B (fst x) r) (firstn (rep_len B r) txns) = filter (fun x => fst x <=? b) (firstn (rep_len B r) txns)).
        { apply filter_ext_in'. intros y Y.
          assert (In y txns) as Y' by (rewrite <- (firstn_skipn (rep_len B r) txns); apply in_app_iff; auto).
          specialize (LO y Y'). destruct (in_rep B (fst y) r) eqn:X; symmetry.
          - apply (ranged_in r a n _ R) in X. apply Nat.leb_le. unfold b. lia.
          - apply Nat.leb_gt. apply not_true_iff_false in X. destruct (Nat.lt_ge_cases b (fst y)) as [Z|Z]; [exact Z|].
            exfalso. apply X. apply (ranged_in r a n _ R). unfold b in Z. lia. }
        rewrite E1. rewrite <- (firstn_skipn (rep_len B r) txns) at 2. rewrite filter_app.
        assert (E2 : filter (fun x => fst x <=? b) (skipn (rep_len B r) txns) = []).
        { assert (Z : forall y, In y (skipn (rep_len B r) txns) -> b < fst y).
          { intros y Y. apply (skip_above b txns I). fold kk.
            replace (rep_len B r) with (kk + (rep_len B r - kk)) in Y by (rewrite RL, KK; unfold b; lia).
            rewrite <- skipn_skipn in Y. rewrite <- (firstn_skipn (rep_len B r - kk) (skipn kk txns)). apply in_app_iff. auto. }
          clear -Z. induction (skipn (rep_len B r) txns) as [|y w IH]; [reflexivity|]. simpl.
          pose proof (Z y (or_introl eq_refl)). destruct (Nat.leb_spec (fst y) b); [lia|]. apply IH. intros z J. apply Z. simpl. auto. }
        rewrite E2, app_nil_r. reflexivity. }
      set (c := filter (fun x => fst x <=? b) txns) in *.
      assert (CF : c = firstn kk txns) by (unfold c, kk; apply filter_prefix; exact I).
      assert (M : mapM transform (map snd c) = Ok (firstn kk (skipn (length C) L))).
      { replace (length C) with (seq_no - 1) by lia. unfold kk. apply content_ok; [lia| |].
        - fold kk. rewrite KK. exact IC.
        - intros k x J. unfold c in J. apply filter_In in J as [J _]. destruct (CT k x J) as (_ & X & _). exact X. }
      set (ys := firstn kk (skipn (length C) L)) in *.
      assert (PE : C ++ ys = firstn b L).
      { unfold ys. rewrite (prefix_eq _ _ PL) at 1. transitivity (firstn (length C + kk) L); [|f_equal; lia].
        rewrite <- (firstn_skipn (length C) L) at 3. rewrite firstn_app.
        rewrite firstn_firstn. rewrite firstn_length. pose proof (prefix_length _ _ PL).
        replace (Nat.min (length C + kk) (length C)) with (length C) by lia.
        replace (length C + kk - Nat.min (length C) (length L)) with kk by lia. reflexivity. }
      destruct G as (GL & GH). assert (LB : length (firstn b L) = b) by (rewrite firstn_length; lia).
      assert (LY : length ys = kk). { pose proof (f_equal (@length _) PE) as Z. rewrite app_length, LB in Z. lia. }
      rewrite <- FE in M. rewrite (has_valid_eq s C seq_no txns node r t ys P F T M).
      rewrite Eh, Ep, PE, LB.
      assert (ER : mthh H (lhs (firstn b L)) = root) by (eapply C01_MTH_functional; [apply MTH_lhs|exact MR]).
      rewrite ER, V, LY. rewrite FE, CF in M.
      assert (SQ : forall i y, nth_error ys i = Some y -> t_seq y = Some (S (length C + i))).
      { intros i y N. apply numbered_L. rewrite <- (firstn_skipn b L), <- PE, <- app_assoc. rewrite nth_error_app2 by lia.
        replace (length C + i - length C) with i by lia. rewrite nth_error_app1; [exact N|]. apply nth_error_Some. congruence. }
      destruct (add_txns_ok _ _ _ _ P M SQ) as (s1 & EA & P1 & B1 & B2 & B3 & B4 & B5 & B6 & B7).
      rewrite EA. set (s2 := remove_processed B node seq_no s1).
      destruct (find_remove _ _ _ _ ND F) as (l1 & l2 & G1 & G2).
      assert (RP : s_replies B s2 = set node (l1 ++ l2) (s_replies B s)).
      { unfold s2. cbn [s_replies remove_processed with_replies]. rewrite B5, G2. reflexivity. }
      assert (PX : prefix (C ++ ys) L) by (rewrite PE; apply prefix_firstn).
      assert (LC2 : length (C ++ ys) = b) by (rewrite PE; exact LB).
      assert (W2 : waiting t s2 (C ++ ys) (skipn kk txns)).
      { split; [rewrite RP; apply nodup_set; exact ND|]. split; [apply inc_skipn; exact I|]. split.
        - intros k x J. apply (skip_above b txns I) in J as [J Gk]. simpl in Gk. destruct (CT k x J) as (_ & CX & rr & (f & rs & K1 & K2) & K3).
          split; [rewrite LC2; exact Gk|]. split; [exact CX|]. exists rr. split; [|exact K3].
          destruct (Nat.eq_dec f node) as [->|Nf].
          + exists node, (l1 ++ l2). rewrite RP. split.
            * apply get_in. rewrite get_set, Nat.eqb_refl. reflexivity.
            * pose proof (in_get _ _ _ ND K1) as GE. unfold get_or in G1. rewrite GE in G1. rewrite G1 in K2.
              apply in_app_iff in K2 as [K2|[K2|K2]]; [apply in_app_iff; auto| |apply in_app_iff; auto].
              subst rr. exfalso. apply (ranged_in _ _ _ _ R) in K3. unfold b in Gk. lia.
          + exists f, rs. split; [|exact K2]. rewrite RP. apply get_in. rewrite get_set.
            destruct (Nat.eqb_spec f node); [congruence|]. apply in_get; assumption.
        - intros rr (f & rs & K1 & K2). assert (has_reply s rr) as HRR.
          { rewrite RP in K1. apply in_set in K1 as [[-> ->]|K1]; [|exists f, rs; auto].
            assert (In rr (get_or node [] (s_replies B s))) as Z.
            { rewrite G1. apply in_app_iff in K2. apply in_app_iff. simpl. tauto. }
            apply get_or_in in Z as (l & Z1 & Z2). exists node, l. auto. }
          destruct (HR rr HRR) as (a' & n' & HO' & WT'). exists a', n'. split; [exact HO'|]. intros i Hi. rewrite LC2.
          destruct (Nat.le_gt_cases i b) as [Li|Li]; [left; exact Li|]. right.
          destruct (WT' i Hi) as [Z|Z]; [lia|]. apply in_map_iff in Z as (y & Ey & Y). apply in_map_iff. exists y. split; [exact Ey|].
          apply (skip_above b txns I). split; [exact Y|]. lia. }
      destruct (IH (skipn kk txns) (num + kk) s2 (C ++ ys)) as (s' & k & C' & es & E1 & E2 & E3 & E4 & E5 & E6 & E7 & E8 & E9 & E10 & E11).
      + rewrite skipn_length. lia.
      + exact P1.
      + exact PX.
      + lia.
      + cbn. rewrite B2. exact T.
      + exact W2.
      + exists s', (kk + k), C', (added_entries (length C) (firstn kk txns) ++ es).
        rewrite Nat.add_assoc. split; [exact E1|]. split; [exact E2|].
        split; [eapply prefix_trans; [|exact E3]; exists ys; reflexivity|]. split; [exact E4|]. split; [exact E5|]. split.
        { destruct E6 as (D1 & D2 & D3 & D4 & D5). cbn in D1, D2, D3, D4, D5.
          split; [congruence|]. split; [congruence|]. split; [congruence|]. split; congruence. }
        rewrite <- skipn_skipn. split; [exact E7|]. split; [exact E8|]. split.
        { intros i J. destruct (Nat.le_gt_cases i b) as [Li|Li].
          - left. pose proof (prefix_length _ _ E3). lia.
          - apply E9. apply in_map_iff in J as (y & Ey & Y). apply in_map_iff. exists y. split; [exact Ey|].
            apply (skip_above b txns I). split; [exact Y|lia]. }
        split; [rewrite E10; cbn; rewrite B7, app_assoc; reflexivity|].
        intros e J. apply in_app_iff in J as [J|J]; [|auto]. unfold added_entries in J. apply in_map_iff in J as ((i, x) & <- & _). eauto.
  Qed.

  (** ** Histories of honest replies *)
  Definition live (t : till) (s : st) (U : nat -> Prop) : Prop :=
    exists C, PI s C /\ prefix C L /\ s_till B s = Some t /\ (exists sz, s_sizes B s = Some sz /\ NoDup (map fst sz)) /\
    ((s_working B s = true /\ length C < t_final t /\ waiting t s C (s_received B s) /\
      ~ In (S (length C)) (map fst (s_received B s)) /\
      forall i, length C < i -> (U i <-> In i (map fst (s_received B s))))
     \/ (s_working B s = false /\ C = firstn (t_final t) L /\ s_replies B s = [] /\ s_received B s = [])).
  Notation kind_entry := (kind_entry B).
  Notation completes := (completes B).

  Lemma rep_live t s U r frm a n : good_till t -> live t s U -> honest t r a n ->
    live t (process_catchup_rep r frm s) (fun i => U i \/ a <= i < a + n) /\
    exists es, s_log B (process_catchup_rep r frm s) = s_log B s ++ es /\ Forall kind_entry es /\ csize B s <= csize B (process_catchup_rep r frm s) /\
      completes es = if s_working B s then (if s_working B (process_catchup_rep r frm s) then 0 else 1) else 0.
  Proof.
    intros G (C & P & PL & T & SZ & D) HO. unfold Catchup_Model.process_catchup_rep.
    pose proof HO as (EL & R & A1 & AF & CT & PR). rewrite EL, Nat.eqb_refl. cbn [negb].
    destruct D as [(EW & LT & W & NI & CV)|(EW & EC & ER)]; rewrite EW; cbn [negb].
    2:{ split; [exists C; split; [exact P|]; split; [exact PL|]; split; [exact T|]; split; [exact SZ|]; right; auto|].
        exists []. rewrite app_nil_r. split; [reflexivity|]. split; [constructor|]. split; [apply Nat.le_refl|reflexivity]. }
    pose proof R as (l & El & CA & N0 & PM). rewrite El. set (s0 := with_wait B _ s).
    assert (P0 : PI s0 C) by exact P. rewrite (PI_size _ _ P0).
    destruct (Nat.le_gt_cases (a + n - 1) (length C)) as [SM|SM].
    - (* nothing new *)
      destruct (interesting B (length C) l) as [txns|] eqn:EI.
      { exfalso. unfold interesting in EI.
        destruct (existsb (fun x => length C <? fst x) (sort_by B (map (fun '(k, x) => (fst k, x)) l))) eqn:EX; [|discriminate].
        apply existsb_exists in EX as ((k, x) & J & Gk). apply Nat.ltb_lt in Gk. cbn [fst] in Gk.
        apply (Permutation_in _ (Permutation_sym (sort_perm B _))) in J. apply in_map_iff in J as ((kk, x') & Z & J).
        injection Z as Z _. assert (In (fst kk) (seq a n)) as Y.
        { apply (Permutation_in _ PM). exact (in_map (fun y => fst (fst y)) _ _ J). }
        apply in_seq in Y. lia. }
      split.
      + exists C. split; [exact P|]. split; [exact PL|]. split; [exact T|]. split; [exact SZ|]. left. split; [exact EW|]. split; [exact LT|]. split; [exact W|].
        split; [exact NI|]. intros i Gi. change (s_received B (emit B (LDiscard B) s0)) with (s_received B s). rewrite <- (CV i Gi). split; [intros [J|J]; [exact J|lia]|auto].
      + exists [LDiscard B]. split; [reflexivity|]. split; [constructor; [exact Logic.I|constructor]|]. split; [apply Nat.le_refl|].
        cbn [s_working emit]. change (s_working B s0) with (s_working B s). rewrite EW. reflexivity.
    - destruct (interesting_complete B (length C) l a n PM N0 ltac:(lia)) as (txns & EI). rewrite EI.
      destruct (interesting_ranged r l (length C) txns) as (a' & L0 & SQ & R' & MEM & _).
      { intros l' k x E J. rewrite El in E. injection E as <-. exact (CA k x J). }
      { exact El. }
      { exact EI. }
      set (s1 := with_replies B _ s0).
      assert (P1 : PI s1 C) by exact P.
      pose proof W as (ND & IR & CTW & HRW).
      destruct (merged_ok B (s_received B s1) txns a' IR SQ L0) as [MI ME].
      set (merged := merge_catchup_txns B (s_received B s1) txns) in *.
      assert (TX : forall k x, In (k, x) txns -> a <= k < a + n /\ exists y, nth_error L (k - 1) = Some y /\ transform x = Ok y).
      { intros k x J. apply MEM in J. split.
        - apply (ranged_in _ _ _ _ R). unfold in_rep. rewrite El. apply existsb_exists. exists ((k, 0), x). split; [exact J|].
          simpl. rewrite Nat.eqb_refl. reflexivity.
        - exact (CT l (k, 0) x El J). }
      assert (ALL : forall i, a <= i < a + n -> In i (map fst txns)).
      { intros i Hi. apply (ranged_in _ _ _ _ R) in Hi. apply (ranged_in _ _ _ _ R') in Hi. rewrite SQ. apply in_seq. exact Hi. }
      assert (HAS1 : forall rr, has_reply s1 rr <-> has_reply s rr \/ rr = r).
      { intros rr. split.
        - intros (f & rs & J1 & J2). unfold s1 in J1. cbn [s_replies with_replies] in J1. apply in_set in J1 as [[-> ->]|J1].
          + apply in_app_iff in J2 as [J2|[<-|[]]]; [|auto]. apply get_or_in in J2 as (l0 & J3 & J4). left. exists frm, l0. auto.
          + left. exists f, rs. auto.
        - assert (GF : In (frm, get_or frm [] (s_replies B s) ++ [r]) (s_replies B s1)).
          { unfold s1. cbn [s_replies with_replies]. apply get_in. rewrite get_set, Nat.eqb_refl. reflexivity. }
          intros [(f & rs & J1 & J2)| ->].
          + destruct (Nat.eq_dec f frm) as [->|Nf].
            * eexists _, _. split; [exact GF|]. apply in_app_iff. left. unfold get_or. rewrite (in_get _ _ _ ND J1). exact J2.
            * exists f, rs. split; [|exact J2]. unfold s1. cbn [s_replies with_replies]. apply get_in. rewrite get_set.
              destruct (Nat.eqb_spec f frm); [congruence|]. apply in_get; assumption.
          + eexists _, _. split; [exact GF|]. apply in_app_iff. right. left. reflexivity. }
      set (num := length (filter (fun x => fst x <=? csize B s1) merged)).
      set (todo := skipn num merged).
      assert (SK : forall x, In x todo <-> In x merged /\ length C < fst x).
      { intros x. unfold todo, num. rewrite (PI_size _ _ P1). apply skip_above. exact MI. }
      assert (MK : forall i, In i (map fst merged) <-> In i (map fst (s_received B s1)) \/ In i (map fst txns)).
      { intros i. split.
        - intros J. apply in_map_iff in J as (y & <- & Y). apply ME in Y as [Y|[Y _]]; [left|right]; apply in_map; exact Y.
        - intros [J|J].
          + apply in_map_iff in J as (y & <- & Y). apply in_map. apply ME. auto.
          + destruct (in_dec Nat.eq_dec i (map fst (s_received B s1))) as [Z|Z].
            * apply in_map_iff in Z as (y & <- & Y). apply in_map. apply ME. auto.
            * apply in_map_iff in J as (y & <- & Y). apply in_map. apply ME. auto. }
      assert (TK : forall i, length C < i -> In i (map fst merged) -> In i (map fst todo)).
      { intros i Gi J. apply in_map_iff in J as (y & <- & Y). apply in_map. apply SK. auto. }
      assert (W1 : waiting t s1 C todo).
      { split; [unfold s1; cbn [s_replies with_replies]; apply nodup_set; exact ND|]. split; [apply inc_skipn; exact MI|]. split.
        - intros k x J. apply SK in J as [J Gk]. simpl in Gk. split; [exact Gk|].
          apply ME in J as [J|[J _]].
          + destruct (CTW k x J) as (_ & X1 & rr & X2 & X3). split; [exact X1|]. exists rr. split; [apply HAS1; auto|exact X3].
          + destruct (TX k x J) as [X1 X2]. split; [exact X2|]. exists r. split; [apply HAS1; auto|]. apply (ranged_in _ _ _ _ R). exact X1.
        - intros rr J. apply HAS1 in J as [J| ->].
          + destruct (HRW rr J) as (a2 & n2 & H2 & C2). exists a2, n2. split; [exact H2|]. intros i Hi.
            destruct (Nat.le_gt_cases i (length C)) as [Li|Li]; [auto|]. right. apply TK; [exact Li|]. apply MK. left.
            destruct (C2 i Hi) as [Z|Z]; [lia|exact Z].
          + exists a, n. split; [exact HO|]. intros i Hi. destruct (Nat.le_gt_cases i (length C)) as [Li|Li]; [auto|].
            right. apply TK; [exact Li|]. apply MK. right. apply ALL. exact Hi. }
      unfold Catchup_Model.process_catchup_txns. fold num. fold todo.
      destruct (loop_live t G (length merged) todo num s1 C) as (s2 & k & C' & es & E1 & E2 & E3 & E4 & E5 & E6 & E7 & E8 & E9 & E10 & E11).
      { unfold todo. rewrite skipn_length. lia. }
      { exact P1. }
      { exact PL. }
      { lia. }
      { exact T. }
      { exact W1. }
      rewrite E1. destruct E6 as (D1 & D2 & D3 & D4 & D5).
      set (s3 := with_received B (skipn (num + k) merged) s2).
      assert (T3 : s_till B s3 = Some t) by (cbn; rewrite D2; exact T). rewrite T3.
      assert (P3 : PI s3 C') by exact E2. rewrite (PI_size _ _ P3).
      assert (KE : Forall kind_entry es /\ completes es = 0).
      { clear -E11. induction es as [|e es IH]; [split; [constructor|reflexivity]|].
        destruct (E11 e (or_introl eq_refl)) as (n1 & x1 & ->). destruct IH as [I1 I2]; [intros e J; apply E11; right; exact J|].
        split; [constructor; [exact Logic.I|exact I1]|exact I2]. }
      assert (W3 : s_working B s3 = true) by (cbn; rewrite D1; exact EW).
      destruct (Nat.leb_spec (t_final t) (length C')) as [Lf|Lf].
      + split.
        * exists C'. split; [exact P3|]. split; [exact E4|]. split; [exact T3|]. split; [cbn; rewrite D3; exact SZ|]. right. split; [reflexivity|]. split; [|split; reflexivity].
          pose proof (prefix_eq _ _ E4) as Z. assert (length C' = t_final t) as Z2 by lia. rewrite Z2 in Z. exact Z.
        * exists (es ++ [LComplete B (t_final t - t_start t)]). unfold finish. rewrite T3. cbn [s_log s_working].
          change (s_log B s3) with (s_log B s2). rewrite E10, app_assoc. split; [reflexivity|]. split.
          { apply Forall_app. split; [apply KE|constructor; [exact Logic.I|constructor]]. }
          split.
          { change (csize B s <= csize B s3). rewrite (PI_size _ _ P3), (PI_size _ _ P). apply (prefix_length _ _ E3). }
          { unfold completes. rewrite filter_app, app_length. destruct KE as [_ KE]. unfold completes in KE. rewrite KE. reflexivity. }
      + split.
        * exists C'. split; [exact P3|]. split; [exact E4|]. split; [exact T3|]. split; [cbn; rewrite D3; exact SZ|]. left. split; [exact W3|]. split; [exact Lf|].
          change (s_received B s3) with (skipn (num + k) merged). rewrite <- skipn_skipn. fold todo.
          split; [exact E7|]. split; [exact E8|].
          intros i Gi. pose proof (prefix_length _ _ E3) as LP. assert (Gi0 : length C < i) by lia.
          assert (K0 : (U i \/ a <= i < a + n) <-> In i (map fst todo)).
          { split.
            - intros J. apply TK; [exact Gi0|]. apply MK. destruct J as [J|J]; [left; apply (CV i Gi0); exact J|right; apply ALL; exact J].
            - intros J. apply in_map_iff in J as ((k0, x0) & <- & Y). apply SK in Y as [Y _]. cbn [fst] in *.
              assert (In k0 (map fst merged)) as Z by exact (in_map fst _ _ Y). apply MK in Z as [Z|Z].
              + left. apply (CV k0 Gi0). exact Z.
              + right. apply in_map_iff in Z as ((k1, x1) & Ez & Z). simpl in Ez. subst k1. apply (TX _ _ Z). }
          rewrite K0. split.
          { intros J. destruct (E9 i J) as [Z|Z]; [lia|exact Z]. }
          { intros J. apply in_map_iff in J as (y & <- & Y). apply in_map.
            rewrite <- (firstn_skipn k todo). apply in_app_iff. auto. }
        * exists es. change (s_log B s3) with (s_log B s2). rewrite E10. split; [reflexivity|]. split; [apply KE|]. split.
          { rewrite (PI_size _ _ P3), (PI_size _ _ P). apply (prefix_length _ _ E3). }
          rewrite W3. apply KE.
  Qed.

  (** ** Which transactions are asked for *)
  Lemma covers_nil P : (forall k, ~ P k) -> covers P [].
  Proof. intros N. split; [intros k K; exfalso; exact (N k K)|intros n r k []]. Qed.
  Lemma covers_ext P Q l : (forall k, P k <-> Q k) -> covers P l -> covers Q l.
  Proof. intros E [A1 A2]. split; [intros k K; apply A1, E, K|intros n r k I J; apply E; eauto]. Qed.
  Lemma covers_app P Q l1 l2 : covers P l1 -> covers Q l2 -> (forall k, P k -> ~ Q k) -> covers (fun k => P k \/ Q k) (l1 ++ l2).
  Proof.
    intros [A1 A2] [B1 B2] D. split.
    - intros k [K|K].
      + destruct (A1 k K) as (u & n & r & v & -> & E & F). exists u, n, r, (v ++ l2). rewrite <- app_assoc. split; [reflexivity|].
        split; [exact E|]. intros n' r' J X. rewrite app_assoc in J. apply in_app_iff in J as [J|J]; [exact (F _ _ J X)|].
        exact (D k K (B2 _ _ _ J X)).
      + destruct (B1 k K) as (u & n & r & v & -> & E & F). exists (l1 ++ u), n, r, v. rewrite <- app_assoc. split; [reflexivity|].
        split; [exact E|]. intros n' r' J X. rewrite <- app_assoc in J. apply in_app_iff in J as [J|J]; [|exact (F _ _ J X)].
        exact (D k (A2 _ _ _ J X) K).
    - intros n r k J X. apply in_app_iff in J as [J|J]; [left; exact (A2 _ _ _ J X)|right; exact (B2 _ _ _ J X)].
  Qed.
  Lemma exactly_covers a b l : NoDup (map fst l) -> exactly_once a b l -> covers (fun k => a <= k <= b) l.
  Proof.
    intros ND [A1 A2]. split; [|exact A2]. intros k K. destruct (A1 k K) as (n & r & I & X & F).
    apply in_split in I as (l1 & l2 & ->). exists l1, n, r, l2. split; [reflexivity|]. split; [exact X|].
    intros n' r' J Y. destruct (F n' r') as [-> ->]; [apply in_app_iff in J; apply in_app_iff; simpl; tauto|exact Y|].
    rewrite map_app in ND. apply NoDup_remove_2 in ND. apply ND. rewrite <- map_app. exact (in_map fst _ _ J).
  Qed.

  Notation entries := (entries B).

  Lemma fold_nodup (el : list nat) (to : nat) : forall d : dict nat, NoDup (map fst d) -> NoDup (map fst (fold_left (fun d n => set n to d) el d)).
  Proof. induction el as [|n el IH]; intros d ND; [exact ND|]. simpl. apply IH. apply nodup_set. exact ND. Qed.
  Lemma fold_in (el : list nat) (to : nat) : forall (d : dict nat) n v, In (n, v) (fold_left (fun d n => set n to d) el d) -> In (n, v) d \/ (In n el /\ v = to).
  Proof.
    induction el as [|m el IH]; intros d n v J; [auto|]. simpl in J. apply IH in J as [J|[J E]]; [|right; split; [right; exact J|exact E]].
    apply in_set in J as [[-> ->]|J]; [right; split; [left; reflexivity|reflexivity]|auto].
  Qed.
  Lemma fold_has (el : list nat) (to : nat) n : In n el -> forall d : dict nat, exists v, get n (fold_left (fun d n => set n to d) el d) = Some v.
  Proof.
    assert (K : forall el (d : dict nat), (exists v, get n d = Some v) -> exists v, get n (fold_left (fun d n => set n to d) el d) = Some v).
    { clear el. induction el as [|m el IH]; intros d E; [exact E|]. simpl. apply IH. rewrite get_set. destruct (n =? m); [eauto|exact E]. }
    induction el as [|m el IH]; intros I d; [destruct I|]. simpl. destruct I as [->|I]; [|apply IH; exact I].
    apply K. rewrite get_set, Nat.eqb_refl. eauto.
  Qed.

  Lemma send_ok sh el a b s t : (forall l, Permutation l (sh l)) -> el <> [] -> 1 <= a <= b -> s_till B s = Some t -> b <= t_final t ->
    (exists sz, s_sizes B s = Some sz /\ NoDup (map fst sz)) ->
    exists s' reqs j, send_catchup_reqs B batch sh el a b s = (s', Ok j) /\ only_wait s s' /\
      s_log B s' = s_log B s ++ entries reqs /\ covers (fun k => a <= k <= b) reqs /\ reqs_to el (t_final t) reqs.
  Proof.
    intros SH NE R T LE (sz & ES & ND). unfold send_catchup_reqs. rewrite T, ES.
    set (good0 := filter _ sz). set (good := match good0 with [] => _ | _ => _ end).
    assert (GOOD : NoDup (map fst good) /\ (forall n v, In (n, v) good -> In n el /\ b <= v) /\ exists n v, In (n, v) good).
    { unfold good. destruct good0 as [|(n0, v0) g] eqn:EG.
      - split; [apply fold_nodup; constructor|]. split.
        + intros n v J. apply fold_in in J as [[]|[J ->]]. auto.
        + destruct el as [|n el']; [congruence|]. destruct (fold_has (n :: el') b n (or_introl eq_refl) []) as (v & E).
          exists n, v. apply get_in. exact E.
      - rewrite <- EG. split; [unfold good0; apply nodup_filter; exact ND|]. split.
        + intros n v J. unfold good0 in J. apply filter_In in J as [_ J]. apply andb_prop in J as [J1 J2].
          apply existsb_exists in J1 as (m & J1 & Em). apply Nat.eqb_eq in Em. subst m. apply Nat.leb_le in J2. split; [exact J1|lia].
        + exists n0, v0. rewrite EG. left. reflexivity. }
    destruct GOOD as (G1 & G2 & n0 & v0 & G3).
    destruct (C37_cover sh a b (t_final t) good batch SH G1 R) as (reqs & EB & N1 & FA & EX).
    { exists n0, v0. split; [exact G3|apply (G2 _ _ G3)]. }
    rewrite EB.
    assert (FO : forall s0, let s1 := fold_left (fun s '(n, r) => emit B (LReq B n r) (with_wait B (add n (s_wait B s)) s)) reqs s0 in
      only_wait s0 s1 /\ s_log B s1 = s_log B s0 ++ entries reqs).
    { clear. induction reqs as [|(n, r) reqs IH]; intros s0.
      - split; [repeat split|]. rewrite app_nil_r. reflexivity.
      - simpl. destruct (IH (emit B (LReq B n r) (with_wait B (add n (s_wait B s0)) s0))) as [A1 A2]. split.
        + eapply only_wait_trans; [|exact A1]. repeat split.
        + rewrite A2. cbn [s_log emit with_wait]. rewrite <- app_assoc. reflexivity. }
    destruct (FO s) as [F1 F2]. eexists _, reqs, _. split; [reflexivity|]. split; [exact F1|]. split; [exact F2|].
    split; [apply exactly_covers; assumption|]. intros n r J. rewrite Forall_forall in FA. destruct (FA _ J) as (H1 & H2 & v & H3 & _).
    cbn [fst snd] in *. split; [exact (proj1 (G2 _ _ H3))|]. auto.
  Qed.

  Lemma gaps_ok sh el t : (forall i l, Permutation l (sh i l)) -> el <> [] -> forall txns k last_seen m s,
    inc txns -> (forall i x, In (i, x) txns -> last_seen < i <= t_final t) -> s_till B s = Some t ->
    (exists sz, s_sizes B s = Some sz /\ NoDup (map fst sz)) ->
    exists s' reqs k' last', request_gaps B batch sh k el txns last_seen m s =
        (s', Ok (k', last', (m - (Z.of_nat last' - Z.of_nat last_seen - Z.of_nat (length txns)))%Z)) /\
      only_wait s s' /\ s_log B s' = s_log B s ++ entries reqs /\ last_seen <= last' /\ (last' <= t_final t \/ last' = last_seen) /\
      (forall i, In i (map fst txns) -> i <= last') /\
      covers (fun i => last_seen < i <= last' /\ ~ In i (map fst txns)) reqs /\ reqs_to el (t_final t) reqs.
  Proof.
    intros SH NE. induction txns as [|(n, x) txns IH]; intros k last_seen m s I RG T SZ; cbn [request_gaps].
    - exists s, [], k, last_seen. split; [do 3 f_equal; simpl; lia|]. split; [repeat split|]. rewrite app_nil_r. split; [reflexivity|].
      split; [lia|]. split; [auto|]. split; [intros i []|]. split; [apply covers_nil; intros i []; lia|intros ? ? []].
    - destruct I as [I1 I2]. pose proof (RG n x (or_introl eq_refl)) as R1.
      assert (RG2 : forall i y, In (i, y) txns -> n < i <= t_final t).
      { intros i y J. specialize (I1 _ J). simpl in I1. specialize (RG i y (or_intror J)). lia. }
      destruct (Nat.eqb_spec n (last_seen + 1)) as [En|En].
      + destruct (IH k n m s I2 RG2 T SZ) as (s' & reqs & k' & last' & A1 & A2 & A3 & A4 & A5 & A6 & A7 & A8).
        exists s', reqs, k', last'. split; [rewrite A1; do 3 f_equal; simpl length; lia|]. split; [exact A2|]. split; [exact A3|].
        split; [lia|]. split; [left; lia|]. split; [intros i [<-|J]; [exact A4|auto]|]. split; [|exact A8].
        revert A7. apply covers_ext. intros i. cbn [map In fst]. split; intros [B1 B2].
        * split; [lia|]. intros [Z|Z]; [lia|tauto].
        * split; [|tauto]. assert (n <> i) by tauto. lia.
      + destruct (send_ok (sh k) el (last_seen + 1) (n - 1) s t (SH k) NE ltac:(lia) T ltac:(lia) SZ) as (s1 & q1 & j & B1 & B2 & B3 & B4 & B5).
        rewrite B1. pose proof B2 as (_ & _ & W3 & W4 & _ & _).
        destruct (IH (S k) n (m - (Z.of_nat n - 1 - Z.of_nat (last_seen + 1) + 1))%Z s1 I2 RG2) as (s' & reqs & k' & last' & A1 & A2 & A3 & A4 & A5 & A6 & A7 & A8).
        { rewrite W3. exact T. }
        { rewrite W4. exact SZ. }
        exists s', (q1 ++ reqs), k', last'. split; [rewrite A1; do 3 f_equal; simpl length; lia|].
        split; [eapply only_wait_trans; eassumption|]. split; [rewrite A3, B3; unfold entries; rewrite map_app, app_assoc; reflexivity|].
        split; [lia|]. split; [left; lia|]. split; [intros i [<-|J]; [exact A4|auto]|]. split.
        * pose proof (covers_app _ _ _ _ B4 A7) as CA. cbv beta in CA.
          eapply covers_ext; [|apply CA; intros i D1 [D2 _]; lia]. intros i. cbv beta. cbn [map In fst]. split.
          { intros [D|[D1 D2]]; [|split; [lia|]; intros [Z|Z]; [lia|tauto]].
            split; [lia|]. intros [Z|Z]; [lia|]. apply in_map_iff in Z as (y & <- & Y). specialize (I1 _ Y). simpl in I1. lia. }
          { intros [D1 D2]. destruct (Nat.lt_ge_cases i n) as [Li|Li]; [left; lia|]. right. split; [|tauto]. assert (n <> i) by tauto. lia. }
        * intros n' r' J. apply in_app_iff in J as [J|J]; [exact (B5 _ _ J)|exact (A8 _ _ J)].
  Qed.

  Lemma inc_room txns : forall lo hi, inc txns -> (forall i (x : txn B), In (i, x) txns -> lo < i <= hi) -> length txns <= hi - lo.
  Proof.
    intros lo hi I R. assert (incl (map fst txns) (seq (S lo) (hi - lo))) as K.
    { intros i J. apply in_map_iff in J as ((k, x) & <- & Y). apply in_seq. specialize (R _ _ Y). simpl. lia. }
    apply NoDup_incl_length in K; [|apply inc_nodup; exact I]. rewrite map_length, seq_length in K. exact K.
  Qed.
  Lemma inc_miss txns lo hi i : inc txns -> (forall i (x : txn B), In (i, x) txns -> lo < i <= hi) -> lo < i <= hi ->
    ~ In i (map fst txns) -> length txns < hi - lo.
  Proof.
    intros I R Hi N. assert (incl (i :: map fst txns) (seq (S lo) (hi - lo))) as K.
    { intros j [<-|J]; [apply in_seq; lia|]. apply in_map_iff in J as ((k, x) & <- & Y). apply in_seq. specialize (R _ _ Y). simpl. lia. }
    apply NoDup_incl_length in K; [|constructor; [exact N|apply inc_nodup; exact I]]. simpl in K. rewrite map_length, seq_length in K. lia.
  Qed.

  (** the nodes the timer turns to *)
  Notation targets := (targets B).
  Lemma targets_nonempty s el : el <> [] -> targets s el <> [].
  Proof.
    unfold targets. intros NE. destruct (forallb _ el) eqn:E; [exact NE|]. clear NE. induction el as [|n el IH]; [discriminate|].
    simpl in *. destruct (existsb (Nat.eqb n) (s_wait B s)); simpl in *; [auto|discriminate].
  Qed.

  Lemma live_only_wait t s s' U : live t s U -> only_wait s s' -> live t s' U.
  Proof.
    intros (C & P & PL & T & SZ & D) (B1 & B2 & B3 & B4 & B5 & B6). exists C. unfold PI. rewrite B1, B2, B3, B4, B6.
    split; [exact P|]. split; [exact PL|]. split; [exact T|]. split; [exact SZ|].
    destruct D as [(D1 & D2 & D3 & D4 & D5)|(D1 & D2 & D3 & D4)]; [left|right].
    - split; [exact D1|]. split; [exact D2|]. split; [|auto]. unfold waiting, has_reply in *. rewrite B5. exact D3.
    - split; [exact D1|]. split; [exact D2|]. rewrite B5. auto.
  Qed.

  Lemma timer_live t s U el sh : good_till t -> live t s U -> (forall i l, Permutation l (sh i l)) ->
    let s' := request_txns_if_needed B batch el sh s in
    live t s' U /\ s_led B s' = s_led B s /\ s_working B s' = s_working B s /\
    if s_working B s then
      match el with
      | [] => s_log B s' = s_log B s
      | _ => exists reqs, s_log B s' = s_log B s ++ entries reqs ++ [LTimer B] /\
             covers (fun k => csize B s < k <= t_final t /\ ~ U k) reqs /\ reqs_to (targets s el) (t_final t) reqs
      end
    else s_log B s' = s_log B s.
  Proof.
    intros G LV SH. cbv zeta.
    assert (OW : only_wait s (request_txns_if_needed B batch el sh s)) by (pose proof (timer_frame el sh s) as [X _]; exact X).
    split; [eapply live_only_wait; eassumption|]. split; [apply OW|]. split; [apply OW|].
    destruct LV as (C & P & PL & T & SZ & D). unfold request_txns_if_needed.
    destruct D as [(EW & LT & W & NI & CV)|(EW & _)]; rewrite EW; cbn [negb]; [|reflexivity].
    destruct W as (_ & I & CT & HR).
    assert (RG : forall i x, In (i, x) (s_received B s) -> length C < i <= t_final t).
    { intros i x J. destruct (CT i x J) as (X1 & _ & r & X2 & X3). split; [exact X1|].
      destruct (HR r X2) as (a & n & HO & _). pose proof HO as (_ & R & _ & AF & _). apply (ranged_in _ _ _ _ R) in X3. lia. }
    assert (NM : num_missing B s = t_final t - length C - length (s_received B s)).
    { unfold num_missing. rewrite T, (PI_size _ _ P). reflexivity. }
    pose proof (inc_miss _ _ _ (S (length C)) I RG ltac:(lia) NI) as RM.
    destruct (Nat.eqb_spec (num_missing B s) 0) as [Z|Z]; [lia|]. fold (targets s el).
    destruct el as [|e0 el']; [reflexivity|]. set (el := e0 :: el').
    pose proof (targets_nonempty s el ltac:(discriminate)) as TN.
    change (match targets s el with [] => _ | _ => ?X end) with (match targets s el with [] => with_wait B [] s | _ => X end).
    set (s0 := with_wait B [] s). change (s_till B s0) with (s_till B s). rewrite T.
    destruct (gaps_ok sh (targets s el) t SH TN (s_received B s) 0 (length C) (Z.of_nat (num_missing B s)) s0 I RG T SZ)
      as (s1 & reqs & k' & last' & A1 & A2 & A3 & A4 & A5 & A6 & A7 & A8).
    change (s_received B s0) with (s_received B s). change (csize B s0) with (csize B s). change (num_missing B s0) with (num_missing B s).
    rewrite (PI_size _ _ P). rewrite A1.
    assert (S1 : csize B s1 = length C).
    { unfold csize. pose proof A2 as (-> & _). exact (PI_size _ _ P). }
    rewrite S1.
    assert (ME : (Z.of_nat (num_missing B s) - (Z.of_nat last' - Z.of_nat (length C) - Z.of_nat (length (s_received B s))))%Z
                 = (Z.of_nat (t_final t) - Z.of_nat last')%Z) by (rewrite NM; lia).
    rewrite ME. destruct (targets s el) as [|n0 nn] eqn:ET; [congruence|]. rewrite <- ET in *.
    destruct (Z.ltb_spec 0 (Z.of_nat (t_final t) - Z.of_nat last')) as [Lm|Lm].
    - assert (EC : (last' =? length C) || negb (last' =? t_final t) = true).
      { destruct (Nat.eqb_spec last' (t_final t)); [lia|]. apply orb_true_r. }
      rewrite EC. pose proof A2 as (_ & _ & W3 & W4 & _ & _).
      destruct (send_ok (sh k') (targets s el) (last' + 1) (t_final t) s1 t (SH k') TN ltac:(lia)) as (s2 & q2 & j & B1 & B2 & B3 & B4 & B5).
      { rewrite W3. exact T. }
      { lia. }
      { rewrite W4. exact SZ. }
      rewrite B1. exists (reqs ++ q2). cbn [s_log emit]. rewrite B3, A3. unfold entries. rewrite map_app, <- !app_assoc.
      split; [reflexivity|]. split.
      + eapply covers_ext; [|apply (covers_app _ _ _ _ A7 B4); intros i [D1 _] D2; lia].
        intros i. cbv beta. split.
        * intros [[D1 D2]|D1]; (split; [lia|]); rewrite (CV i ltac:(lia)); [exact D2|]. intros X. specialize (A6 _ X). lia.
        * intros [D1 D2]. rewrite (CV i ltac:(lia)) in D2. destruct (Nat.le_gt_cases i last') as [Li|Li]; [left; split; [lia|exact D2]|right; lia].
      + intros n' r' J. apply in_app_iff in J as [J|J]; [exact (A8 _ _ J)|exact (B5 _ _ J)].
    - exists reqs. cbn [s_log emit]. rewrite A3, <- app_assoc. split; [reflexivity|]. split; [|exact A8].
      eapply covers_ext; [|exact A7]. intros i. cbv beta. assert (last' = t_final t) as -> by lia. split.
      + intros [D1 D2]. split; [lia|]. rewrite (CV i ltac:(lia)). exact D2.
      + intros [D1 D2]. split; [lia|]. rewrite (CV i ltac:(lia)) in D2. exact D2.
  Qed.

  Notation idle := (idle B).

  Lemma start_live t s C el sh sz : good_till t -> idle s -> PI s C -> prefix C L -> t_start t = length C -> length C < t_final t ->
    (forall i l, Permutation l (sh i l)) -> NoDup (map fst sz) ->
    let s' := start B batch (Some t) (Some sz) el sh s in
    live t s' (fun k => k <= length C) /\ s_working B s' = true /\ s_led B s' = s_led B s /\
    match el with
    | [] => s_log B s' = s_log B s
    | _ => exists reqs, s_log B s' = s_log B s ++ entries reqs ++ [LTimer B] /\
           covers (fun k => length C < k <= t_final t) reqs /\ reqs_to el (t_final t) reqs
    end.
  Proof.
    intros G (I1 & I2 & I3) P PL TS LT SH ND. cbv zeta. unfold start.
    set (s0 := mkSt B (s_led B s) true (Some t) (Some sz) (s_wait B s) (s_replies B s) (s_received B s) (s_log B s)).
    assert (P0 : PI s0 C) by exact P. rewrite (PI_size _ _ P0).
    assert (L0 : live t s0 (fun k => k <= length C)).
    { exists C. split; [exact P0|]. split; [exact PL|]. split; [reflexivity|]. split; [exists sz; auto|]. left.
      split; [reflexivity|]. split; [exact LT|]. change (s_received B s0) with (s_received B s). rewrite I3. split; [|split].
      - unfold waiting, has_reply. change (s_replies B s0) with (s_replies B s). rewrite I2. split; [constructor|].
        split; [exact Logic.I|]. split; [intros k x []|]. intros r (f & rs & [] & _).
      - intros [].
      - intros i Gi. simpl. split; [lia|tauto]. }
    destruct (Nat.leb_spec (t_final t) (length C)) as [Z|_]; [lia|].
    destruct el as [|e0 el']; [split; [exact L0|]; split; [reflexivity|]; split; reflexivity|]. set (el := e0 :: el').
    destruct (send_ok (sh 0) el (t_start t + 1) (t_final t) s0 t (SH 0) ltac:(discriminate) ltac:(lia) eq_refl ltac:(lia))
      as (s1 & q & j & B1 & B2 & B3 & B4 & B5).
    { exists sz. auto. }
    rewrite B1. split; [eapply live_only_wait; [exact L0|]; exact B2|]. split; [apply B2|]. split; [apply B2|].
    exists q. cbn [s_log emit]. rewrite B3, <- app_assoc. split; [reflexivity|]. split; [|exact B5].
    eapply covers_ext; [|exact B4]. intros i. cbv beta. lia.
  Qed.

  (** ** Histories in which every reply is honest *)
  Notation good_op := (good_op H B ser_tree transform lid L).
  Notation good_ops := (good_ops H B ser_tree transform lid L).

  Lemma live_ext t s U V : (forall k, U k <-> V k) -> live t s U -> live t s V.
  Proof.
    intros E (C & P & PL & T & SZ & D). exists C. split; [exact P|]. split; [exact PL|]. split; [exact T|]. split; [exact SZ|].
    destruct D as [(D1 & D2 & D3 & D4 & D5)|D]; [left|right; exact D]. split; [exact D1|]. split; [exact D2|]. split; [exact D3|].
    split; [exact D4|]. intros i J. rewrite <- E. auto.
  Qed.

  Lemma stopped_step t o U s : good_op t o U -> s_working B s = false -> step H B ser_log ser_tree transform batch lid s o = s.
  Proof.
    intros G E. destruct G; cbn [step].
    - unfold Catchup_Model.process_catchup_rep. rewrite E. destruct (negb (r_ledger B r =? lid)); reflexivity.
    - unfold request_txns_if_needed. rewrite E. reflexivity.
  Qed.
  Lemma stopped_run t os U : good_ops t os U -> forall s, s_working B s = false -> run os s = s.
  Proof.
    induction 1 as [|o os U V G1 GO IH]; intros s E; [reflexivity|].
    change (run (o :: os) s) with (run os (step H B ser_log ser_tree transform batch lid s o)).
    rewrite (stopped_step t o U s G1 E). apply IH. exact E.
  Qed.

  Lemma run_live t : good_till t -> forall os V, good_ops t os V -> forall s U, live t s U ->
    live t (run os s) (fun k => U k \/ V k) /\
    exists es, s_log B (run os s) = s_log B s ++ es /\ Forall kind_entry es /\ csize B s <= csize B (run os s) /\
      completes es = if s_working B s then (if s_working B (run os s) then 0 else 1) else 0.
  Proof.
    intros G os V GO. induction GO as [|o os U1 V G1 GO IH]; intros s U LV.
    - split; [eapply live_ext; [|exact LV]; intros k; tauto|]. exists []. rewrite app_nil_r. split; [reflexivity|].
      split; [constructor|]. split; [apply Nat.le_refl|]. simpl. destruct (s_working B s); reflexivity.
    - change (run (o :: os) s) with (run os (step H B ser_log ser_tree transform batch lid s o)).
      set (s1 := step H B ser_log ser_tree transform batch lid s o).
      assert (K : live t s1 (fun k => U k \/ U1 k) /\ exists es, s_log B s1 = s_log B s ++ es /\ Forall kind_entry es /\ csize B s <= csize B s1 /\
        completes es = if s_working B s then (if s_working B s1 then 0 else 1) else 0).
      { destruct G1 as [r frm a n HO|el sh SH].
        - exact (rep_live t s U r frm a n G LV HO).
        - destruct (timer_live t s U el sh G LV SH) as (A1 & A2 & A3 & A4). cbn [step] in s1. fold s1 in A1, A3, A4.
          split; [eapply live_ext; [|exact A1]; intros k; tauto|]. rewrite A3.
          assert (SL : csize B s <= csize B s1) by (unfold csize; change (s_led B s1) with (s_led B (request_txns_if_needed B batch el sh s)); rewrite A2; apply Nat.le_refl).
          destruct (s_working B s).
          + destruct el as [|e0 el'].
            * exists []. rewrite app_nil_r. split; [exact A4|]. split; [constructor|]. split; [exact SL|reflexivity].
            * destruct A4 as (reqs & E & _). exists (entries reqs ++ [LTimer B]). split; [exact E|]. split; [|split; [exact SL|]]; clear.
              -- apply Forall_app. split; [|constructor; [exact Logic.I|constructor]]. apply Forall_forall. intros e J.
                 unfold entries in J. apply in_map_iff in J as ((n, r) & <- & _). exact Logic.I.
              -- unfold completes. rewrite filter_app, app_length. simpl. rewrite Nat.add_0_r.
                 induction reqs as [|(n, r) reqs IH]; [reflexivity|exact IH].
          + exists []. rewrite app_nil_r. split; [exact A4|]. split; [constructor|]. split; [exact SL|reflexivity]. }
      destruct K as (L1 & es1 & E1 & F1 & M1 & C1). destruct (IH s1 _ L1) as (L2 & es2 & E2 & F2 & M2 & C2).
      split; [eapply live_ext; [|exact L2]; intros k; tauto|].
      exists (es1 ++ es2). rewrite E2, E1, app_assoc. split; [reflexivity|]. split; [apply Forall_app; auto|]. split; [eapply Nat.le_trans; eassumption|].
      unfold completes in *. rewrite filter_app, app_length, C1, C2.
      assert (ST : s_working B s = false -> s1 = s) by (intros Z; apply (stopped_step t _ _ _ G1 Z)).
      assert (MONO : s_working B s1 = false -> run os s1 = s1) by (intros Z; apply (stopped_run t _ _ GO _ Z)).
      destruct (s_working B s) eqn:W0.
      + destruct (s_working B s1) eqn:W1; [reflexivity|]. rewrite (MONO eq_refl), W1. reflexivity.
      + rewrite (ST eq_refl), W0. reflexivity.
  Qed.
End State.
