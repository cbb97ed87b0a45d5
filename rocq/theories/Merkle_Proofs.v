(** Proofs about the Merkle tree model: roots and peaks. *)
From Coq Require Import List Arith NArith Lia Bool.
From Verif Require Import Base Bits_Model Bits_Proofs Merkle_Spec Merkle_Model.
Import ListNotations.

Section Proofs.
  Variable H : bytes -> bytes.
  Notation hash_children := (hash_children H).
  Notation hash_leaf := (hash_leaf H).
  Notation hash_empty := (hash_empty H).
  Notation hash_fold := (hash_fold H).

  (** Merkle hash of a list of leaf hashes, as a function. *)
  Fixpoint mthh_f (fuel : nat) (l : list bytes) : bytes :=
    match fuel with
    | 0 => hash_empty
    | S f =>
      match l with
      | [] => hash_empty
      | [h] => h
      | _ => let k := 2 ^ Nat.log2 (length l - 1) in
             hash_children (mthh_f f (firstn k l)) (mthh_f f (skipn k l))
      end
    end.
  Definition mthh (l : list bytes) : bytes := mthh_f (length l) l.

  Lemma mthh_f_eq f : forall l, length l <= f -> mthh_f f l = mthh l.
  Proof.
    induction f as [f IH] using lt_wf_ind. intros l Hl. unfold mthh.
    destruct f as [|f].
    - destruct l; simpl in *; [reflexivity|lia].
    - destruct l as [|a [|b l]]; [reflexivity|reflexivity|].
      change (mthh_f (length (a :: b :: l)) (a :: b :: l)) with
        (let k := 2 ^ Nat.log2 (length (a :: b :: l) - 1) in
         hash_children (mthh_f (S (length l)) (firstn k (a :: b :: l)))
                       (mthh_f (S (length l)) (skipn k (a :: b :: l)))).
      change (mthh_f (S f) (a :: b :: l)) with
        (let k := 2 ^ Nat.log2 (length (a :: b :: l) - 1) in
         hash_children (mthh_f f (firstn k (a :: b :: l)))
                       (mthh_f f (skipn k (a :: b :: l)))).
      cbv zeta. set (L := a :: b :: l) in *.
      assert (EL : length L = S (S (length l))) by reflexivity.
      pose proof (split_bounds (length L) ltac:(lia)) as [B1 B2].
      set (k := 2 ^ Nat.log2 (length L - 1)) in *.
      assert (Hk : 1 <= k) by apply pow2_pos.
      assert (length (firstn k L) <= S (length l)) by (rewrite firstn_length; lia).
      assert (length (skipn k L) <= S (length l)) by (rewrite skipn_length; lia).
      rewrite (IH f) by lia. rewrite (IH f) by lia.
      destruct (Nat.eq_dec f (S (length l))) as [->|].
      + rewrite !IH by lia. reflexivity.
      + rewrite !(IH (S (length l))) by lia. reflexivity.
  Qed.

  Lemma mthh_nil : mthh [] = hash_empty. Proof. reflexivity. Qed.
  Lemma mthh_one h : mthh [h] = h. Proof. reflexivity. Qed.

  Lemma mthh_app j a b : length a = 2 ^ j -> 1 <= length b <= 2 ^ j ->
    mthh (a ++ b) = hash_children (mthh a) (mthh b).
  Proof.
    intros Ha Hb. pose proof (pow2_pos j).
    assert (Hl : length (a ++ b) = length a + length b) by apply app_length.
    unfold mthh at 1.
    destruct (length (a ++ b)) as [|n] eqn:E; [lia|].
    destruct (a ++ b) as [|x [|y l]] eqn:El; [simpl in *; lia|simpl in *; lia|].
    rewrite <- El in *.
    assert (Hk : Nat.log2 (length (a ++ b) - 1) = j).
    { apply split_log2; lia. }
    transitivity (let k := 2 ^ Nat.log2 (length (a ++ b) - 1) in
         hash_children (mthh_f n (firstn k (a ++ b))) (mthh_f n (skipn k (a ++ b)))).
    { rewrite El. reflexivity. }
    cbv zeta. rewrite Hk. rewrite <- Ha.
    rewrite firstn_app, Nat.sub_diag, firstn_all, firstn_O, app_nil_r.
    rewrite skipn_app, Nat.sub_diag, skipn_all. simpl skipn. simpl app.
    rewrite !mthh_f_eq by lia. reflexivity.
  Qed.

  (** Induction along the RFC 6962 split. *)
  Lemma split_ind (P : list bytes -> Prop) :
    (forall h, P [h]) ->
    (forall j a b, length a = 2 ^ j -> 1 <= length b <= 2 ^ j -> P a -> P b -> P (a ++ b)) ->
    forall l, l <> [] -> P l.
  Proof.
    intros H1 H2 l. remember (length l) as n. revert l Heqn.
    induction n as [n IH] using lt_wf_ind. intros l E Hl.
    destruct l as [|x [|y l]]; [congruence|apply H1|].
    set (L := x :: y :: l) in *.
    assert (Hn : 2 <= n) by (subst n; unfold L; simpl; lia).
    pose proof (split_bounds n Hn) as [B1 B2]. set (j := Nat.log2 (n - 1)) in *.
    pose proof (pow2_pos j).
    rewrite <- (firstn_skipn (2 ^ j) L).
    assert (length (firstn (2 ^ j) L) = 2 ^ j) by (rewrite firstn_length; lia).
    assert (length (skipn (2 ^ j) L) = n - 2 ^ j) by (rewrite skipn_length; lia).
    apply (H2 j); try lia.
    - apply (IH (2 ^ j)); try lia. intros F; rewrite F in *; simpl in *; lia.
    - apply (IH (n - 2 ^ j)); try lia. intros F; rewrite F in *; simpl in *; lia.
  Qed.

  (** ** The functional version agrees with RFC 6962 *)
  Lemma MTH_mthh D r : MTH H D r -> r = mthh (map hash_leaf D).
  Proof.
    induction 1 as [|d|k D1 D2 r1 r2 L1 L2 _ IH1 _ IH2]; try reflexivity.
    rewrite map_app, (mthh_app k) by (rewrite !map_length; auto).
    rewrite <- IH1, <- IH2. reflexivity.
  Qed.

  Lemma mthh_MTH D : MTH H D (mthh (map hash_leaf D)).
  Proof.
    remember (length D) as n. revert D Heqn.
    induction n as [n IH] using lt_wf_ind. intros D E.
    destruct D as [|x [|y l]]; [constructor|constructor|].
    set (L := x :: y :: l) in *.
    assert (Hn : 2 <= n) by (subst n; unfold L; simpl; lia).
    pose proof (split_bounds n Hn) as [B1 B2]. set (j := Nat.log2 (n - 1)) in *.
    pose proof (pow2_pos j).
    rewrite <- (firstn_skipn (2 ^ j) L).
    assert (length (firstn (2 ^ j) L) = 2 ^ j) by (rewrite firstn_length; lia).
    assert (length (skipn (2 ^ j) L) = n - 2 ^ j) by (rewrite skipn_length; lia).
    rewrite map_app, (mthh_app j) by (rewrite !map_length; lia).
    apply MTH_node with (k := j); try lia.
    - apply (IH (2 ^ j)); lia.
    - apply (IH (n - 2 ^ j)); lia.
  Qed.

  (** ** Peaks: the hashes of the full subtrees, largest first *)
  Fixpoint peaks_f (fuel : nat) (l : list bytes) : list bytes :=
    match fuel with
    | 0 => []
    | S f => match l with
             | [] => []
             | _ => let k := 2 ^ Nat.log2 (length l) in
                    mthh (firstn k l) :: peaks_f f (skipn k l)
             end
    end.
  Definition peaks (l : list bytes) : list bytes := peaks_f (length l) l.

  Lemma peaks_f_eq f : forall l, length l <= f -> peaks_f f l = peaks l.
  Proof.
    induction f as [f IH] using lt_wf_ind. intros l Hl. unfold peaks.
    destruct f as [|f].
    - destruct l; simpl in *; [reflexivity|lia].
    - destruct l as [|a l]; [reflexivity|].
      change (length (a :: l)) with (S (length l)).
      cbn [peaks_f]. f_equal.
      set (L := a :: l) in *. pose proof (pow2_pos (Nat.log2 (length L))).
      assert (length L = S (length l)) by reflexivity.
      assert (length (skipn (2 ^ Nat.log2 (length L)) L) <= length l) by (rewrite skipn_length; lia).
      rewrite (IH f) by lia. destruct (Nat.eq_dec (length l) f) as [<-|].
      + rewrite (IH (length l)) by lia. reflexivity.
      + rewrite (IH (length l)) by lia. reflexivity.
  Qed.

  Lemma peaks_nil : peaks [] = []. Proof. reflexivity. Qed.

  Lemma peaks_unfold l : l <> [] ->
    peaks l = mthh (firstn (2 ^ Nat.log2 (length l)) l)
              :: peaks (skipn (2 ^ Nat.log2 (length l)) l).
  Proof.
    intros Hl. unfold peaks at 1. destruct l as [|a l]; [congruence|].
    change (length (a :: l)) with (S (length l)) at 1.
    cbn [peaks_f]. f_equal. apply peaks_f_eq.
    pose proof (pow2_pos (Nat.log2 (length (a :: l)))).
    rewrite skipn_length. change (length (a :: l)) with (S (length l)) in *. lia.
  Qed.

  Lemma peaks_app_gen j a b : length a = 2 ^ j -> length b < 2 ^ j ->
    peaks (a ++ b) = mthh a :: peaks b.
  Proof.
    intros Ha Hb. pose proof (pow2_pos j).
    rewrite peaks_unfold.
    2:{ intros E. apply (f_equal (@length _)) in E. rewrite app_length in E. simpl in E. lia. }
    assert (Nat.log2 (length (a ++ b)) = j) as ->.
    { apply Nat.log2_unique; [lia|]. rewrite app_length, Nat.pow_succ_r'. lia. }
    rewrite <- Ha.
    rewrite firstn_app, Nat.sub_diag, firstn_all, firstn_O, app_nil_r.
    rewrite skipn_app, Nat.sub_diag, skipn_all. reflexivity.
  Qed.

  Lemma peaks_full j c : length c = 2 ^ j -> peaks c = [mthh c].
  Proof.
    intros Hc. rewrite <- (app_nil_r c) at 1.
    rewrite (peaks_app_gen j) by (simpl; pose proof (pow2_pos j); lia). reflexivity.
  Qed.

  Lemma log2_split (l : list bytes) : l <> [] ->
    exists j a b, l = a ++ b /\ length a = 2 ^ j /\ length b < 2 ^ j.
  Proof.
    intros Hl. assert (0 < length l) by (destruct l; [congruence|simpl; lia]).
    pose proof (Nat.log2_spec (length l) ltac:(lia)) as [A B].
    exists (Nat.log2 (length l)), (firstn (2 ^ Nat.log2 (length l)) l), (skipn (2 ^ Nat.log2 (length l)) l).
    split; [symmetry; apply firstn_skipn|].
    rewrite firstn_length, skipn_length. rewrite Nat.pow_succ_r' in B. lia.
  Qed.

  Lemma peaks_length l : length (peaks l) = count_bits_set (length l).
  Proof.
    remember (length l) as n. revert l Heqn.
    induction n as [n IH] using lt_wf_ind. intros l E.
    destruct (list_eq_dec bytes_eq_dec l []) as [->|Hl]; [subst; reflexivity|].
    destruct (log2_split l Hl) as (j & a & b & -> & Ha & Hb).
    pose proof (pow2_pos j). rewrite app_length in E.
    rewrite (peaks_app_gen j) by auto. subst n. rewrite Ha, count_bits_add_pow2 by auto.
    simpl. f_equal. eapply IH; [|reflexivity]. lia.
  Qed.

  Lemma aligned_lt P x p r : P * x < P * p -> r < P -> P * x + r < P * p.
  Proof.
    intros A B. assert (x < p) by (apply (Nat.mul_lt_mono_pos_l P); lia).
    assert (P * S x <= P * p) by (apply Nat.mul_le_mono_l; lia). lia.
  Qed.

  Lemma peaks_snoc j : forall l c m, length c = 2 ^ j -> length l = 2 ^ S j * m ->
    peaks (l ++ c) = peaks l ++ [mthh c].
  Proof.
    intros l. remember (length l) as n. revert l Heqn.
    induction n as [n IH] using lt_wf_ind. intros l E c m Hc Hm.
    destruct (list_eq_dec bytes_eq_dec l []) as [->|Hl].
    - simpl. rewrite (peaks_full j) by auto. reflexivity.
    - destruct (log2_split l Hl) as (i & a & b & -> & Ha & Hb).
      rewrite app_length in E. pose proof (pow2_pos i). pose proof (pow2_pos j).
      assert (Hji : S j <= i).
      { destruct (le_lt_dec (S j) i); auto. exfalso.
        assert (2 ^ S i <= 2 ^ S j) by (apply Nat.pow_le_mono_r; lia).
        rewrite !Nat.pow_succ_r' in *. destruct m; nia. }
      assert (E2 : 2 ^ i = 2 ^ S j * 2 ^ (i - S j)).
      { rewrite <- Nat.pow_add_r. f_equal. lia. }
      assert (Hb' : length b = 2 ^ S j * (m - 2 ^ (i - S j))).
      { rewrite Nat.mul_sub_distr_l. lia. }
      rewrite <- app_assoc. rewrite (peaks_app_gen i a (b ++ c)), (peaks_app_gen i a b); auto.
      + simpl. f_equal. eapply (IH (length b)); eauto. lia.
      + rewrite app_length, Hc.
        rewrite Hb', E2 in *. apply aligned_lt; [lia|]. rewrite Nat.pow_succ_r'. lia.
  Qed.

  (** ** Folding *)
  Lemma hash_fold_one a : hash_fold [a] = Ok a. Proof. reflexivity. Qed.

  Lemma hash_fold_cons a l r : hash_fold l = Ok r -> hash_fold (a :: l) = Ok (hash_children a r).
  Proof.
    unfold Merkle_Model.hash_fold. simpl. destruct (rev l) as [|x xs]; [discriminate|].
    simpl. intros E. injection E as <-. rewrite fold_left_app. reflexivity.
  Qed.

  Lemma hash_fold_peaks l : l <> [] -> hash_fold (peaks l) = Ok (mthh l).
  Proof.
    remember (length l) as n. revert l Heqn.
    induction n as [n IH] using lt_wf_ind. intros l E Hl.
    destruct (log2_split l Hl) as (j & a & b & -> & Ha & Hb).
    pose proof (pow2_pos j). rewrite app_length in E.
    rewrite (peaks_app_gen j) by auto.
    destruct (list_eq_dec bytes_eq_dec b []) as [->|Hb0].
    - rewrite app_nil_r. reflexivity.
    - assert (1 <= length b) by (destruct b; [congruence|simpl; lia]).
      rewrite (mthh_app j) by lia. apply hash_fold_cons. eapply IH; [|reflexivity|auto]. lia.
  Qed.

  (** ** Trees representing a list of leaf hashes *)
  Definition TreeOf (t : tree) (l : list bytes) : Prop :=
    tree_size t = length l /\ hashes t = peaks l.

  Lemma TreeOf_empty : TreeOf empty_tree [].
  Proof. split; reflexivity. Qed.

  Lemma TreeOf_root t l : TreeOf t l -> root_hash H t = Ok (mthh l).
  Proof.
    intros [_ E]. unfold root_hash. rewrite E.
    destruct (list_eq_dec bytes_eq_dec l []) as [->|Hl]; [reflexivity|].
    pose proof (hash_fold_peaks l Hl) as F.
    destruct (peaks l) eqn:P; [|exact F]. discriminate F.
  Qed.

  Lemma update_ok l n hs : n = length l -> hs = peaks l ->
    exists t, update n hs = Ok t /\ TreeOf t l.
  Proof.
    intros -> ->. unfold update. rewrite peaks_length, Nat.eqb_refl. simpl.
    eexists. split; [reflexivity|]. split; reflexivity.
  Qed.

  (** The nodes written when [l] grew to [l] by a subtree of [2^j] leaves:
      heights [j+1 .. i-1], each covering the last [2^height] leaves. *)
  Definition last_node (l : list bytes) (i : nat) : bytes :=
    mthh (slice l (length l - 2 ^ i) (length l)).

  Lemma slice_last {A} (l c : list A) : slice (l ++ c) (length l) (length (l ++ c)) = c.
  Proof.
    unfold slice. rewrite skipn_app, skipn_all, Nat.sub_diag, app_length. simpl.
    replace (length l + length c - length l) with (length c) by lia. apply firstn_all.
  Qed.

  Lemma tz_unique j m i q : 2 ^ j * (2 * m + 1) = 2 ^ i * (2 * q + 1) -> i = j.
  Proof.
    intros E. apply (f_equal lowest_bit_set) in E. rewrite !lowest_bit_set_spec in E. congruence.
  Qed.

  Lemma push_ok : forall fuel t l c j q,
    TreeOf t l -> length c = 2 ^ j -> length l = 2 ^ j * q -> length (peaks l) < fuel ->
    exists t' i m,
      push_subtree_hash H fuel t (S j) (mthh c)
        = Ok (t', map (fun h => (last_node (l ++ c) h, h)) (seq (S j) (i - j)))
      /\ TreeOf t' (l ++ c) /\ j <= i /\ length (l ++ c) = 2 ^ i * (2 * m + 1).
  Proof.
    induction fuel as [|fuel IH]; intros t l c j q Ht Hc Hq Hf; [lia|].
    destruct Ht as [Hs Hh]. pose proof (pow2_pos j).
    cbn [push_subtree_hash]. replace (S j - 1) with j by lia.
    unfold mintree_height. rewrite Hs.
    destruct (Nat.even q) eqn:Ev.
    - (* no carry *)
      apply Nat.even_spec in Ev. destruct Ev as [p ->].
      assert (Hl : length l = 2 ^ S j * p) by (rewrite Nat.pow_succ_r'; lia).
      assert (C : (S j <? lowest_bit_set (length l)) || (lowest_bit_set (length l) =? 0) = true).
      { destruct (Nat.eq_dec p 0) as [->|].
        - replace (length l) with 0 by lia. rewrite lowest_bit_set_0. apply orb_true_r.
        - destruct (two_adic p ltac:(lia)) as (a & b & ->).
          replace (length l) with (2 ^ (S j + a) * (2 * b + 1)) by (rewrite Nat.pow_add_r; lia).
          rewrite lowest_bit_set_spec. apply orb_true_intro. left. apply Nat.ltb_lt. lia. }
      rewrite C.
      destruct (update_ok (l ++ c) (length l + 2 ^ j) (hashes t ++ [mthh c])) as (t' & E & T).
      { rewrite app_length. lia. }
      { rewrite Hh. symmetry. eapply peaks_snoc; eauto. }
      rewrite E. cbn [bind].
      exists t', j, p. rewrite Nat.sub_diag. simpl map.
      split; [reflexivity|]. split; [exact T|]. split; [lia|].
      rewrite app_length, Hl, Hc, Nat.pow_succ_r'. lia.
    - (* carry *)
      assert (O : Nat.odd q = true) by (unfold Nat.odd; rewrite Ev; reflexivity).
      apply Nat.odd_spec in O. destruct O as [p ->].
      rewrite Hq, lowest_bit_set_spec.
      rewrite Nat.ltb_irrefl. simpl (S j =? 0). simpl orb. rewrite Nat.eqb_refl. simpl negb.
      cbv iota.
      pose (l0 := firstn (2 ^ j * (2 * p)) l). pose (d := skipn (2 ^ j * (2 * p)) l).
      assert (El : l = l0 ++ d) by (symmetry; apply firstn_skipn).
      assert (Hl0 : length l0 = 2 ^ S j * p).
      { unfold l0. rewrite firstn_length, Nat.pow_succ_r'. lia. }
      assert (Hd : length d = 2 ^ j) by (unfold d; rewrite skipn_length; lia).
      assert (Pk : peaks l = peaks l0 ++ [mthh d]).
      { rewrite El. eapply peaks_snoc; eauto. }
      rewrite Hh, Pk, rev_app_distr. simpl rev. simpl app.
      rewrite removelast_last.
      destruct (update_ok l0 (2 ^ j * (2 * p + 1) - 2 ^ j) (peaks l0)) as (t1 & E1 & T1); auto.
      { rewrite Hl0, Nat.pow_succ_r'. lia. }
      rewrite E1. cbn [bind]. destruct T1 as [T1s T1h].
      unfold mintree_height. rewrite T1s.
      assert (C : (S j <? lowest_bit_set (length l0)) || (lowest_bit_set (length l0) =? 0) = true).
      { rewrite Hl0. destruct (Nat.eq_dec p 0) as [->|].
        - rewrite Nat.mul_0_r. rewrite lowest_bit_set_0. apply orb_true_r.
        - destruct (two_adic p ltac:(lia)) as (a & b & ->).
          replace (2 ^ S j * (2 ^ a * (2 * b + 1))) with (2 ^ (S j + a) * (2 * b + 1))
            by (rewrite Nat.pow_add_r; lia).
          rewrite lowest_bit_set_spec. apply orb_true_intro. left. apply Nat.ltb_lt. lia. }
      rewrite C. simpl negb. cbv iota. rewrite <- (mthh_app j) by lia.
      replace (S j + 1) with (S (S j)) by lia.
      destruct (IH t1 l0 (d ++ c) (S j) p) as (t2 & i & m & E2 & T2 & Hi & Hlen).
      { split; auto. }
      { rewrite app_length, Nat.pow_succ_r'. lia. }
      { auto. }
      { rewrite Pk, app_length in Hf. simpl in Hf. lia. }
      rewrite E2. cbn [bind].
      assert (Ell : l0 ++ d ++ c = l ++ c) by (rewrite El, app_assoc; reflexivity).
      rewrite Ell in *.
      exists t2, i, m. split; [|split; [auto|split; [lia|auto]]].
      f_equal. f_equal.
      replace (i - j) with (S (i - S j)) by lia. simpl seq. simpl map. f_equal.
      f_equal. unfold last_node. f_equal.
      replace (length (l ++ c) - 2 ^ S j) with (length l0).
      2:{ rewrite <- Ell, !app_length, Nat.pow_succ_r'. lia. }
      rewrite <- Ell. symmetry. apply slice_last.
  Qed.

  (** ** [_hash_full] *)
  Lemma skipn_map {A B} (f : A -> B) n l : skipn n (map f l) = map f (skipn n l).
  Proof. revert l. induction n; intros [|x l]; simpl; auto. Qed.

  Lemma slice_map {A B} (f : A -> B) l a b : slice (map f l) a b = map f (slice l a b).
  Proof. unfold slice. rewrite skipn_map, firstn_map. reflexivity. Qed.

  Lemma hash_full_ok : forall fuel leaves a b, a <= b -> b <= length leaves -> b - a < fuel ->
    hash_full H fuel leaves a b
      = Ok (mthh (map hash_leaf (slice leaves a b)), peaks (map hash_leaf (slice leaves a b))).
  Proof.
    induction fuel as [|f IH]; intros leaves a b Hab Hb Hf; [lia|].
    cbn [hash_full].
    destruct (Nat.ltb_spec b a); [lia|]. destruct (Nat.ltb_spec (length leaves) b); [lia|].
    simpl orb. cbv iota.
    destruct (Nat.eqb_spec (b - a) 0) as [E0|E0].
    { unfold slice. rewrite E0. reflexivity. }
    destruct (Nat.eqb_spec (b - a) 1) as [E1|E1].
    { destruct (nth_error leaves a) eqn:N.
      - replace b with (S a) by lia. rewrite (slice_one _ _ _ N). reflexivity.
      - apply nth_error_None in N. lia. }
    assert (W : bit_length (b - a - 1) - 1 = Nat.log2 (b - a - 1)).
    { unfold bit_length. rewrite highest_bit_set_pos by lia. lia. }
    rewrite W. pose proof (split_bounds (b - a) ltac:(lia)) as [B1 B2].
    set (j := Nat.log2 (b - a - 1)) in *. pose proof (pow2_pos j).
    destruct (Nat.ltb_spec (2 ^ j) (b - a)); [|lia].
    destruct (Nat.leb_spec (b - a) (2 * 2 ^ j)); [|lia].
    simpl andb. simpl negb. cbv iota.
    rewrite IH by lia. cbn [bind].
    set (L := map hash_leaf (slice leaves a (a + 2 ^ j))).
    assert (HL : length L = 2 ^ j). { unfold L. rewrite map_length, slice_length; lia. }
    rewrite (peaks_full j L HL). simpl length. simpl (1 =? 1). simpl negb. cbv iota.
    rewrite IH by lia. cbn [bind].
    set (R := map hash_leaf (slice leaves (a + 2 ^ j) b)).
    assert (HR : length R = b - a - 2 ^ j). { unfold R. rewrite map_length, slice_length; lia. }
    assert (ELR : map hash_leaf (slice leaves a b) = L ++ R).
    { unfold L, R. rewrite <- map_app, <- slice_split by lia. reflexivity. }
    rewrite ELR, (mthh_app j) by lia. f_equal. f_equal.
    destruct (Nat.eqb_spec (2 ^ j * 2) (b - a)) as [E2|E2].
    - rewrite (peaks_full (S j)).
      + rewrite (mthh_app j) by lia. reflexivity.
      + rewrite app_length, Nat.pow_succ_r'. lia.
    - rewrite (peaks_app_gen j) by lia. reflexivity.
  Qed.

  Lemma hash_full_tree_ok leaves :
    hash_full H (S (length leaves)) leaves 0 (length leaves)
      = Ok (mthh (map hash_leaf leaves), peaks (map hash_leaf leaves)).
  Proof. rewrite hash_full_ok by lia. rewrite slice_all. reflexivity. Qed.

  (** ** [_push_subtree], [append], [extend] *)
  Lemma push_subtree_ok t l leaves j q : TreeOf t l -> length leaves = 2 ^ j ->
    length l = 2 ^ j * q ->
    exists t' i m,
      push_subtree H t leaves
        = Ok (t', [mthh (map hash_leaf leaves)],
              map (fun h => (length l + length leaves, h, last_node (l ++ map hash_leaf leaves) h))
                  (seq (S j) (i - j)))
      /\ TreeOf t' (l ++ map hash_leaf leaves) /\ j <= i
      /\ length (l ++ map hash_leaf leaves) = 2 ^ i * (2 * m + 1).
  Proof.
    intros Ht Hl Hq. unfold push_subtree. rewrite Hl, count_bits_pow2, lowest_bit_set_pow2.
    simpl (1 =? 1). simpl negb. cbv iota.
    assert (C : (0 <? mintree_height t) && (mintree_height t <? S j) = false).
    { unfold mintree_height. destruct Ht as [-> _]. rewrite Hq.
      destruct (Nat.eq_dec q 0) as [->|]; [rewrite Nat.mul_0_r; reflexivity|].
      destruct (two_adic q ltac:(lia)) as (a & b & ->).
      rewrite Nat.mul_assoc, <- Nat.pow_add_r, lowest_bit_set_spec.
      apply andb_false_intro2. apply Nat.ltb_ge. lia. }
    rewrite C.
    pose proof (hash_full_tree_ok leaves) as HF. rewrite Hl in HF. rewrite HF. cbn [bind].
    destruct (push_ok (S (length (hashes t))) t l (map hash_leaf leaves) j q)
      as (t' & i & m & E & T & Hi & Hlen); auto.
    { rewrite map_length; auto. }
    { destruct Ht as [_ ->]. lia. }
    rewrite E. cbn [bind]. exists t', i, m. split; [|auto].
    rewrite (peaks_full j) by (rewrite map_length; auto).
    f_equal. f_equal. rewrite map_map. apply map_ext. intros h.
    destruct T as [-> _]. rewrite app_length, map_length, Hl. reflexivity.
  Qed.

  (** Number of trailing zeros of a positive number. *)
  Definition tz (n : nat) : nat := lowest_bit_set n - 1.
  Lemma tz_spec j m : tz (2 ^ j * (2 * m + 1)) = j.
  Proof. unfold tz. rewrite lowest_bit_set_spec. lia. Qed.

  Lemma append_ok t l leaf : TreeOf t l ->
    exists t',
      append H t leaf
        = Ok (rev (peaks l),
              (t', [hash_leaf leaf],
               map (fun h => (S (length l), h, last_node (l ++ [hash_leaf leaf]) h))
                   (seq 1 (tz (S (length l))))))
      /\ TreeOf t' (l ++ [hash_leaf leaf]).
  Proof.
    intros Ht. unfold append.
    destruct (push_subtree_ok t l [leaf] 0 (length l)) as (t' & i & m & E & T & _ & Hlen); auto.
    { simpl. lia. }
    rewrite E. cbn [bind]. exists t'. split; [|exact T].
    destruct Ht as [_ ->]. f_equal. f_equal. f_equal.
    rewrite app_length in Hlen. simpl length in Hlen.
    replace (length l + 1) with (S (length l)) in Hlen by lia.
    rewrite Hlen, tz_spec, Nat.sub_0_r, <- Hlen.
    apply map_ext. intros h. simpl length. rewrite Nat.add_1_r. reflexivity.
  Qed.

  Lemma extend_loop_ok : forall fuel t l leaves idx,
    TreeOf t (l ++ map hash_leaf (firstn idx leaves)) -> idx <= length leaves ->
    length leaves - idx < fuel ->
    exists t' idx',
      extend_loop H fuel t leaves idx = Ok (t', idx') /\ idx <= idx' <= length leaves /\
      TreeOf t' (l ++ map hash_leaf (firstn idx' leaves)) /\
      (exists j q, length l + idx' = 2 ^ j * q /\ (q = 0 \/ length leaves - idx' < 2 ^ j)).
  Proof.
    induction fuel as [|fuel IH]; intros t l leaves idx Ht Hi Hf; [lia|].
    cbn [extend_loop]. unfold mintree_height. destruct Ht as [Hs Hh]. rewrite Hs.
    rewrite app_length, map_length, firstn_length, Nat.min_l by lia.
    destruct (Nat.eq_dec (length l + idx) 0) as [E0|E0].
    - rewrite E0, lowest_bit_set_0. simpl (0 <? 0). simpl andb. cbv iota.
      exists t, idx. split; [reflexivity|]. split; [lia|]. split; [split; auto|].
      exists 0, 0. split; [simpl; lia|auto].
    - destruct (two_adic (length l + idx) ltac:(lia)) as (j & m & E).
      rewrite E, lowest_bit_set_spec. replace (S j - 1) with j by lia.
      change (0 <? S j) with true. cbn [andb]. pose proof (pow2_pos j).
      destruct (Nat.leb_spec (2 ^ j) (length leaves - idx)) as [C|C].
      + destruct (push_subtree_ok t (l ++ map hash_leaf (firstn idx leaves))
                   (slice leaves idx (idx + 2 ^ j)) j (2 * m + 1)) as (t' & i & m' & E' & T & _).
        { split; auto. }
        { rewrite slice_length; lia. }
        { rewrite app_length, map_length, firstn_length. lia. }
        rewrite E'. cbn [bind].
        assert (Ef : firstn idx leaves ++ slice leaves idx (idx + 2 ^ j) = firstn (idx + 2 ^ j) leaves).
        { rewrite !firstn_slice. symmetry. apply slice_split; lia. }
        rewrite <- app_assoc, <- map_app, Ef in T.
        destruct (IH t' l leaves (idx + 2 ^ j)) as (t2 & idx2 & E2 & Hb & T2 & R); auto; [lia|lia|].
        exists t2, idx2. split; [exact E2|]. split; [lia|]. auto.
      + exists t, idx. split; [reflexivity|]. split; [lia|]. split; [split; auto|].
        exists j, (2 * m + 1). split; [auto|lia].
  Qed.

  (** Peaks of a multiple of [2^j] followed by fewer than [2^j] leaves. *)
  Lemma peaks_app_aligned j : forall l q b, length l = 2 ^ j * q -> length b < 2 ^ j ->
    peaks (l ++ b) = peaks l ++ peaks b.
  Proof.
    intros l. remember (length l) as n. revert l Heqn.
    induction n as [n IH] using lt_wf_ind. intros l E q b Hq Hb.
    destruct (list_eq_dec bytes_eq_dec l []) as [->|Hl]; [reflexivity|].
    destruct (log2_split l Hl) as (i & a & c & -> & Ha & Hc).
    rewrite app_length in E. pose proof (pow2_pos i). pose proof (pow2_pos j).
    assert (Hji : j <= i).
    { destruct (le_lt_dec j i); auto. exfalso.
      assert (2 ^ S i <= 2 ^ j) by (apply Nat.pow_le_mono_r; lia).
      rewrite Nat.pow_succ_r' in *. destruct q; nia. }
    assert (E2 : 2 ^ i = 2 ^ j * 2 ^ (i - j)).
    { rewrite <- Nat.pow_add_r. f_equal. lia. }
    assert (Hc' : length c = 2 ^ j * (q - 2 ^ (i - j))).
    { rewrite Nat.mul_sub_distr_l. lia. }
    rewrite <- app_assoc. rewrite (peaks_app_gen i a (c ++ b)), (peaks_app_gen i a c); auto.
    - simpl. f_equal. eapply (IH (length c)); eauto. lia.
    - rewrite app_length.
      rewrite Hc', E2 in *. apply aligned_lt; lia.
  Qed.

  Lemma extend_ok t l leaves : TreeOf t l ->
    exists t', extend H t leaves = Ok t' /\ TreeOf t' (l ++ map hash_leaf leaves).
  Proof.
    intros Ht. unfold extend.
    destruct (extend_loop_ok (S (length leaves)) t l leaves 0) as (t1 & idx & E & Hb & T1 & j & q & Ej & Hq).
    { simpl. rewrite app_nil_r. exact Ht. } { lia. } { lia. }
    rewrite E. cbn [bind].
    assert (Hts : tree_size t = length l) by apply Ht.
    destruct (Nat.ltb_spec idx (length leaves)) as [C|C].
    - rewrite hash_full_ok by lia. cbn [bind].
      set (l1 := l ++ map hash_leaf (firstn idx leaves)) in *.
      assert (Hl1 : length l1 = 2 ^ j * q).
      { unfold l1. rewrite app_length, map_length, firstn_length. lia. }
      assert (Er : l ++ map hash_leaf leaves = l1 ++ map hash_leaf (slice leaves idx (length leaves))).
      { unfold l1. rewrite <- app_assoc, <- map_app, firstn_slice, <- slice_split, slice_all by lia.
        reflexivity. }
      rewrite Er.
      destruct (update_ok (l1 ++ map hash_leaf (slice leaves idx (length leaves)))
                  (tree_size t + length leaves)
                  (hashes t1 ++ peaks (map hash_leaf (slice leaves idx (length leaves)))))
        as (t2 & E2 & T2).
      + rewrite <- Er, app_length, map_length, Hts. reflexivity.
      + destruct T1 as [_ ->]. symmetry.
        destruct Hq as [->|Hq].
        * assert (l1 = []) as ->. { destruct l1; auto. simpl in Hl1. lia. } reflexivity.
        * eapply peaks_app_aligned; eauto. rewrite map_length, slice_length; lia.
      + rewrite E2. cbn [bind]. destruct T2 as [T2s T2h]. rewrite T2s, <- Er, app_length, map_length, Hts, Nat.eqb_refl.
        exists t2. split; [reflexivity|]. split; rewrite <- ?Er; auto. rewrite <- Er in T2s. auto. rewrite <- Er in T2h. auto.
    - cbn [bind]. assert (idx = length leaves) by lia. subst idx. rewrite firstn_all in T1.
      destruct T1 as [T1s T1h]. rewrite T1s, app_length, map_length, Hts, Nat.eqb_refl.
      exists t1. split; [reflexivity|]. split; auto.
  Qed.
End Proofs.
