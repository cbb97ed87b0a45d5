(** Proofs about the hash store: positions, contents, [merkle_tree_hash], proofs served. *)
From Coq Require Import List Arith NArith Lia Bool.
From Verif Require Import Base Bits_Model Bits_Proofs Merkle_Spec Merkle_Model Merkle_Proofs.
Import ListNotations.

(** A key-value store whose keys are exactly 1..n, in order. *)
Definition dlist (l : list bytes) : kv := combine (seq 1 (length l)) l.

Lemma combine_seq_app {A} (l l' : list A) s :
  combine (seq s (length (l ++ l'))) (l ++ l')
    = combine (seq s (length l)) l ++ combine (seq (s + length l) (length l')) l'.
Proof.
  revert s. induction l as [|x l IH]; intros s; simpl.
  - rewrite Nat.add_0_r. reflexivity.
  - f_equal. rewrite IH. simpl. repeat f_equal. lia.
Qed.

Lemma dlist_length l : length (dlist l) = length l.
Proof. unfold dlist. rewrite combine_length, seq_length. lia. Qed.

Lemma kv_get_combine k s l : kv_get k (combine (seq s (length l)) l)
  = if s <=? k then nth_error l (k - s) else None.
Proof.
  revert s. induction l as [|x l IH]; intros s; simpl.
  - destruct (s <=? k); auto. destruct (k - s); reflexivity.
  - destruct (Nat.eqb_spec k s) as [->|Hk].
    + rewrite Nat.leb_refl, Nat.sub_diag. reflexivity.
    + rewrite IH. destruct (Nat.leb_spec (S s) k).
      * destruct (Nat.leb_spec s k); [|lia]. replace (k - s) with (S (k - S s)) by lia. reflexivity.
      * destruct (Nat.leb_spec s k); [lia|reflexivity].
Qed.

Lemma kv_get_dlist i l : kv_get (S i) (dlist l) = nth_error l i.
Proof. unfold dlist. rewrite kv_get_combine. simpl. f_equal. lia. Qed.

Lemma kv_get_dlist0 l : kv_get 0 (dlist l) = None.
Proof. unfold dlist. rewrite kv_get_combine. reflexivity. Qed.

Lemma kv_put_fresh k v m : kv_get k m = None -> kv_put k v m = m ++ [(k, v)].
Proof.
  induction m as [|[k' v'] m IH]; simpl; auto.
  destruct (k =? k'); [discriminate|]. intros E. rewrite IH; auto.
Qed.

Lemma kv_put_dlist l v : kv_put (S (length l)) v (dlist l) = dlist (l ++ [v]).
Proof.
  rewrite kv_put_fresh.
  - unfold dlist. rewrite combine_seq_app. reflexivity.
  - rewrite kv_get_dlist. apply nth_error_None. lia.
Qed.

(** Overwriting an existing position with the value it already holds changes nothing. *)
Lemma kv_put_same k v m : kv_get k m = Some v -> kv_put k v m = m.
Proof.
  induction m as [|[k' v'] m IH]; simpl; [discriminate|].
  destruct (Nat.eqb_spec k k') as [->|]; intros E.
  - injection E as ->. reflexivity.
  - rewrite IH; auto.
Qed.

(** ** Positions *)
Definition pos (n h : nat) : nat := n - 1 - count_bits_set (n - 1) + h.

Lemma count_bits_pow2_pred p : count_bits_set (2 ^ p - 1) = p.
Proof.
  pose proof (count_bits_pred p 0) as E. replace (2 ^ p * (2 * 0 + 1)) with (2 ^ p) in E by lia.
  rewrite count_bits_pow2 in E. lia.
Qed.

Lemma pow2_gt p : p < 2 ^ p.
Proof. apply Nat.pow_gt_lin_r. lia. Qed.

Lemma getNodePosition_f_ok : forall fuel n h, 0 < n -> 0 < h -> n < fuel ->
  getNodePosition_f fuel n h = Ok (pos n h).
Proof.
  induction fuel as [|f IH]; intros n h Hn Hh Hf; [lia|].
  cbn [getNodePosition_f]. rewrite highest_bit_set_pos by auto.
  replace (S (Nat.log2 n) - 1) with (Nat.log2 n) by lia.
  destruct (Nat.eqb_spec h 0); [lia|].
  destruct (Nat.eqb_spec (count_bits_set n) 1) as [E|E].
  - apply count_bits_one_pow2 in E. destruct E as [p ->].
    rewrite Nat.log2_pow2 by lia. unfold pos. rewrite count_bits_pow2_pred.
    pose proof (pow2_gt p). f_equal. lia.
  - pose proof (Nat.log2_spec n Hn) as [B1 B2]. set (p := Nat.log2 n) in *.
    rewrite Nat.pow_succ_r' in B2.
    assert (Hne : n <> 2 ^ p). { intros F. rewrite F, count_bits_pow2 in E. lia. }
    assert (Hp : 0 < p). { clearbody p. destruct p; [simpl in *; lia|lia]. }
    rewrite (IH (2 ^ p) p) by (pose proof (pow2_pos p); lia).
    cbn [bind]. rewrite (IH (n - 2 ^ p) h) by (pose proof (pow2_pos p); lia).
    cbn [bind]. f_equal. unfold pos. rewrite count_bits_pow2_pred.
    pose proof (pow2_gt p).
    assert (C : count_bits_set (n - 1) = S (count_bits_set (n - 2 ^ p - 1))).
    { replace (n - 1) with (2 ^ p + (n - 2 ^ p - 1)) by lia. apply count_bits_add_pow2. lia. }
    pose proof (count_bits_le (n - 2 ^ p - 1)). lia.
Qed.

Lemma getNodePosition_ok n h : 0 < n -> 0 < h -> getNodePosition n h = Ok (pos n h).
Proof. intros. apply getNodePosition_f_ok; lia. Qed.

Section Store.
  Variable H : bytes -> bytes.
  Notation hash_children := (hash_children H).
  Notation hash_leaf := (hash_leaf H).
  Notation hash_fold := (hash_fold H).
  Notation mthh := (mthh H).
  Notation peaks := (peaks H).
  Notation last_node := (last_node H).

  (** Nodes completed by the [n]-th leaf, lowest first. *)
  Definition nodes_at (lh : list bytes) (n : nat) : list bytes :=
    map (fun i => mthh (slice lh (n - 2 ^ i) n)) (seq 1 (tz n)).
  Definition nodes_upto (lh : list bytes) (m : nat) : list bytes :=
    flat_map (nodes_at lh) (seq 1 m).
  Definition all_nodes (lh : list bytes) : list bytes := nodes_upto lh (length lh).

  Lemma nodes_upto_S lh m : nodes_upto lh (S m) = nodes_upto lh m ++ nodes_at lh (S m).
  Proof.
    unfold nodes_upto. rewrite seq_S, flat_map_app. simpl. rewrite app_nil_r. reflexivity.
  Qed.

  Lemma tz_count n : 0 < n -> count_bits_set (n - 1) + 1 = count_bits_set n + tz n.
  Proof.
    intros Hn. destruct (two_adic n Hn) as (j & m & ->). rewrite tz_spec. apply count_bits_pred.
  Qed.

  Lemma nodes_upto_length lh m : length (nodes_upto lh m) = m - count_bits_set m.
  Proof.
    induction m as [|m IH]; [reflexivity|].
    rewrite nodes_upto_S, app_length, IH. unfold nodes_at. rewrite map_length, seq_length.
    pose proof (tz_count (S m) ltac:(lia)) as E. replace (S m - 1) with m in E by lia.
    pose proof (count_bits_le m). pose proof (count_bits_le (S m)). lia.
  Qed.

  Lemma nodes_at_app lh lh' n : n <= length lh -> nodes_at (lh ++ lh') n = nodes_at lh n.
  Proof.
    intros Hn. unfold nodes_at. apply map_ext. intros i. rewrite slice_app_l by auto. reflexivity.
  Qed.

  Lemma nodes_upto_app lh lh' m : m <= length lh -> nodes_upto (lh ++ lh') m = nodes_upto lh m.
  Proof.
    induction m as [|m IH]; intros Hm; [reflexivity|].
    rewrite !nodes_upto_S, IH, nodes_at_app by lia. reflexivity.
  Qed.

  Lemma all_nodes_snoc lh h : all_nodes (lh ++ [h]) = all_nodes lh ++ nodes_at (lh ++ [h]) (S (length lh)).
  Proof.
    unfold all_nodes. rewrite app_length. simpl length. rewrite Nat.add_1_r, nodes_upto_S.
    rewrite nodes_upto_app by lia. reflexivity.
  Qed.

  Lemma divides_tz i n q : 0 < n -> n = 2 ^ i * q -> i <= tz n.
  Proof.
    intros Hn E. assert (0 < q) by (destruct q; lia).
    destruct (two_adic q ltac:(lia)) as (a & b & ->).
    rewrite Nat.mul_assoc, <- Nat.pow_add_r in E. rewrite E, tz_spec. lia.
  Qed.

  Lemma nth_nodes_upto lh m n i q : 0 < n <= m -> 1 <= i -> n = 2 ^ i * q ->
    nth_error (nodes_upto lh m) (pos n i - 1) = Some (mthh (slice lh (n - 2 ^ i) n)).
  Proof.
    intros Hn Hi Hq. induction m as [|m IH]; [lia|].
    rewrite nodes_upto_S.
    pose proof (divides_tz i n q ltac:(lia) Hq) as Ht.
    pose proof (tz_count n ltac:(lia)) as C.
    pose proof (count_bits_le (n - 1)). pose proof (count_bits_le n).
    destruct (Nat.eq_dec n (S m)) as [->|Hne].
    - rewrite nth_error_app2; rewrite nodes_upto_length.
      2:{ unfold pos. replace (S m - 1) with m by lia. lia. }
      unfold pos. replace (S m - 1) with m in * by lia.
      replace (m - count_bits_set m + i - 1 - (m - count_bits_set m)) with (i - 1) by lia.
      unfold nodes_at.
      rewrite (map_nth_error _ (i - 1) (seq 1 (tz (S m))) (d := i)); [reflexivity|].
      rewrite (nth_error_nth' _ 0) by (rewrite seq_length; lia).
      rewrite seq_nth by lia. f_equal. lia.
    - rewrite nth_error_app1; [apply IH; lia|].
      rewrite nodes_upto_length.
      assert (L : n - count_bits_set n <= m - count_bits_set m).
      { rewrite <- !(nodes_upto_length lh). clear -Hne Hn.
        assert (n <= m) by lia. clear Hn Hne. induction H0; [lia|].
        rewrite nodes_upto_S, app_length. lia. }
      unfold pos. lia.
  Qed.

  (** [s] holds the leaf hashes [lh] and every node they complete, and nothing else. *)
  Definition StoreOf (s : store) (lh : list bytes) : Prop :=
    s_leaves s = dlist lh /\ s_nodes s = dlist (all_nodes lh) /\ s_leafCount s = length lh.

  Lemma StoreOf_empty : StoreOf empty_store [].
  Proof. repeat split. Qed.

  Lemma writeNodes_ok ns s n done :
    s_nodes s = dlist done -> 0 < n -> length done = n - 1 - count_bits_set (n - 1) + (0) ->
    forall f, ns = map (fun h => (n, h, f h)) (seq 1 (length ns)) ->
    writeNodes s ns = Ok (mkStore (s_leaves s) (dlist (done ++ map f (seq 1 (length ns)))) (s_leafCount s)).
  Proof.
    intros Hs Hn Hd f Hns.
    remember (length ns) as k eqn:Ek. clear Ek. subst ns.
    assert (G : forall k st dn s', s_nodes s' = dlist dn -> length dn + 1 = pos n st -> 1 <= st ->
      s_leaves s' = s_leaves s -> s_leafCount s' = s_leafCount s ->
      writeNodes s' (map (fun h => (n, h, f h)) (seq st k))
      = Ok (mkStore (s_leaves s) (dlist (dn ++ map f (seq st k))) (s_leafCount s))).
    { clear k. induction k as [|k IH]; intros st dn s' E1 E2 E3 E4 E5; simpl.
      - rewrite app_nil_r, <- E1, <- E4, <- E5. destruct s'; reflexivity.
      - rewrite getNodePosition_ok by lia. cbn [bind].
        rewrite (IH (S st) (dn ++ [f st])); cbn [s_nodes s_leaves s_leafCount]; auto.
        + rewrite <- app_assoc. reflexivity.
        + rewrite E1, <- E2, Nat.add_1_r. apply kv_put_dlist.
        + rewrite app_length. unfold pos in *. simpl. lia. }
    apply G; auto. unfold pos. lia.
  Qed.

  (** Appending a leaf and writing what [_push_subtree] writes (compact_merkle_tree.py:127-136). *)
  Lemma StoreOf_append s lh h : StoreOf s lh ->
    exists s', writeNodes (writeLeaf s h)
      (map (fun i => (S (length lh), i, last_node (lh ++ [h]) i)) (seq 1 (tz (S (length lh))))) = Ok s'
      /\ StoreOf s' (lh ++ [h]).
  Proof.
    intros (E1 & E2 & E3). eexists. split.
    - apply writeNodes_ok with (done := all_nodes lh) (n := S (length lh)) (f := last_node (lh ++ [h])).
      + exact E2.
      + lia.
      + unfold all_nodes. rewrite nodes_upto_length.
        replace (S (length lh) - 1) with (length lh) by lia. lia.
      + rewrite map_length, seq_length. reflexivity.
    - cbn [s_leaves s_nodes s_leafCount writeLeaf]. unfold StoreOf. cbn [s_leaves s_nodes s_leafCount].
      rewrite E1, E3, Nat.add_1_r, kv_put_dlist. split; [reflexivity|]. split.
      + rewrite all_nodes_snoc. unfold nodes_at, Merkle_Proofs.last_node.
        rewrite map_length, seq_length, app_length. simpl length. rewrite Nat.add_1_r. reflexivity.
      + rewrite app_length. simpl. lia.
  Qed.

  Lemma expected_loop_ok : forall fuel n c, n <= fuel -> expected_loop fuel n c = c + (n - count_bits_set n).
  Proof.
    induction fuel as [|f IH]; intros n c Hn.
    - replace n with 0 by lia. simpl. lia.
    - cbn [expected_loop]. destruct (Nat.ltb_spec 1 n).
      + rewrite IH by (pose proof (Nat.lt_div2 n); lia).
        pose proof (count_bits_le n). pose proof (count_bits_le (Nat.div2 n)).
        destruct (Nat.even n) eqn:E.
        * apply Nat.even_spec in E. destruct E as [k ->]. rewrite Nat.div2_double, count_bits_double in *. lia.
        * assert (O : Nat.odd n = true) by (unfold Nat.odd; rewrite E; reflexivity).
          apply Nat.odd_spec in O. destruct O as [k ->].
          replace (2 * k + 1) with (S (2 * k)) in * by lia. rewrite Nat.div2_succ_double in *.
          replace (S (2 * k)) with (2 * k + 1) in * by lia. rewrite count_bits_succ_double in *. lia.
      + destruct n as [|[|n]]; [simpl; lia|simpl; lia|lia].
  Qed.

  Lemma expected_ok n : get_expected_node_count n = n - count_bits_set n.
  Proof. unfold get_expected_node_count. rewrite expected_loop_ok by lia. lia. Qed.

  (** ** Reading ranges *)
  (** The store serves every leaf up to [length lh] and every node completed by leaf [m] or earlier. *)
  Definition Reads (s : store) (lh : list bytes) (m : nat) : Prop :=
    (forall i, i < length lh -> kv_get (S i) (s_leaves s) = nth_error lh i) /\
    (forall n i q, 0 < n <= m -> 1 <= i -> n = 2 ^ i * q ->
       kv_get (pos n i) (s_nodes s) = Some (mthh (slice lh (n - 2 ^ i) n))).

  Lemma StoreOf_Reads s lh : StoreOf s lh -> Reads s lh (length lh).
  Proof.
    intros (E1 & E2 & E3). split.
    - intros i Hi. rewrite E1. apply kv_get_dlist.
    - intros n i q Hn Hi Hq. rewrite E2. unfold pos.
      replace (n - 1 - count_bits_set (n - 1) + i) with (S (pos n i - 1)) by (unfold pos; lia).
      rewrite kv_get_dlist. eapply nth_nodes_upto; eauto.
  Qed.

  Lemma Reads_leaf s lh m i : Reads s lh m -> i < length lh ->
    readOne (s_leaves s) (S i) = Ok (nth i lh []).
  Proof.
    intros [R _] Hi. unfold readOne. change (S i <? 1) with false. cbv iota.
    rewrite R by auto. rewrite (nth_error_nth' lh ([] : bytes) Hi). reflexivity.
  Qed.

  Lemma Reads_node s lh m n i q : Reads s lh m -> 0 < n <= m -> 1 <= i -> n = 2 ^ i * q ->
    readOne (s_nodes s) (pos n i) = Ok (mthh (slice lh (n - 2 ^ i) n)).
  Proof.
    intros [_ R] Hn Hi Hq. unfold readOne. destruct (Nat.ltb_spec (pos n i) 1).
    { unfold pos in *. lia. }
    erewrite R by eauto. reflexivity.
  Qed.

  Lemma slice_nth (lh : list bytes) i : i < length lh -> slice lh i (S i) = [nth i lh []].
  Proof. intros. apply slice_one. apply nth_error_nth'. auto. Qed.

  Lemma mapM_app {A B} (f : A -> res B) l1 l2 r1 r2 :
    mapM f l1 = Ok r1 -> mapM f l2 = Ok r2 -> mapM f (l1 ++ l2) = Ok (r1 ++ r2).
  Proof.
    revert r1. induction l1 as [|x l1 IH]; simpl; intros r1 E1 E2.
    - injection E1 as <-. exact E2.
    - destruct (f x); [|discriminate]. cbn [bind] in *.
      destruct (mapM f l1); [|discriminate]. cbn [bind] in *. injection E1 as <-.
      rewrite (IH a0) by auto. reflexivity.
  Qed.

  Definition foldup (acc : bytes) (l : list bytes) : bytes :=
    fold_left (fun accum cur => hash_children cur accum) l acc.

  Lemma getPath_ok s lh : forall fuel off e q n,
    off = 2 ^ e * q -> 1 <= e -> 1 <= n <= 2 ^ e -> off + n <= length lh ->
    Reads s lh (off + n - 1) -> off + n < fuel + off ->
    exists leafs nodes ls ns,
      getPath_f fuel (off + n) off = Ok (leafs, nodes) /\
      mapM (readOne (s_leaves s)) leafs = Ok ls /\
      mapM (readOne (s_nodes s)) nodes = Ok ns /\
      foldup (nth (off + n - 1) lh []) (ls ++ ns) = mthh (slice lh off (off + n)).
  Proof.
    induction fuel as [|f IH]; intros off e q n Ho He Hn Hl HR Hf; [lia|].
    cbn [getPath_f]. destruct (Nat.leb_spec (off + n) off); [lia|].
    replace (off + n - 1 - off) with (n - 1) by lia.
    assert (Ev : exists k, off = 2 * k).
    { exists (2 ^ (e - 1) * q). rewrite Ho. replace e with (S (e - 1)) at 1 by lia.
      rewrite Nat.pow_succ_r'. lia. }
    destruct Ev as [k Ek].
    destruct (Nat.eq_dec n 1) as [->|].
    { change (highest_bit_set (1 - 1) - 1 =? 0) with true. cbv iota.
      replace (Nat.even (off + 1)) with false.
      2:{ rewrite Ek. symmetry. replace (2 * k + 1) with (S (2 * k)) by lia.
          rewrite Nat.even_succ, <- Nat.negb_even, Nat.even_mul. reflexivity. }
      exists [], [], [], []. repeat split; auto.
      simpl. rewrite Nat.add_1_r. replace (S off - 1) with off by lia.
      rewrite slice_nth by lia. reflexivity. }
    destruct (Nat.eq_dec n 2) as [->|].
    { change (highest_bit_set (2 - 1) - 1 =? 0) with true. cbv iota.
      replace (Nat.even (off + 2)) with true.
      2:{ rewrite Ek. symmetry. apply Nat.even_spec. exists (k + 1). lia. }
      exists [off + 2 - 1], [], [nth off lh []], []. split; [reflexivity|].
      split. { simpl. replace (off + 2 - 1) with (S off) by lia.
        rewrite (Reads_leaf s lh _ off HR) by lia. reflexivity. }
      split; [reflexivity|].
      simpl. replace (off + 2 - 1) with (S off) by lia.
      rewrite (slice_split lh off (S off) (off + 2)) by lia.
      replace (off + 2) with (S (S off)) by lia.
      rewrite !slice_nth by lia.
      rewrite (mthh_app H 0) by (simpl; lia). reflexivity. }
    rewrite highest_bit_set_pos by lia.
    replace (S (Nat.log2 (n - 1)) - 1) with (Nat.log2 (n - 1)) by lia.
    pose proof (split_bounds n ltac:(lia)) as [B1 B2]. set (p := Nat.log2 (n - 1)) in *.
    pose proof (pow2_pos p).
    assert (Hp : 1 <= p). { clearbody p. destruct p; [simpl in *; lia|lia]. }
    destruct (Nat.eqb_spec p 0); [lia|].
    assert (Hpe : p < e).
    { destruct (le_lt_dec e p); auto. exfalso.
      assert (2 ^ e <= 2 ^ p) by (apply Nat.pow_le_mono_r; lia). lia. }
    assert (Ec : off + 2 ^ p = 2 ^ p * (2 ^ (e - p) * q + 1)).
    { rewrite Ho. replace (2 ^ e) with (2 ^ p * 2 ^ (e - p)).
      - lia. - rewrite <- Nat.pow_add_r. f_equal. lia. }
    destruct (IH (off + 2 ^ p) p (2 ^ (e - p) * q + 1) (n - 2 ^ p))
      as (leafs & nodes & ls & ns & G1 & G2 & G3 & G4); auto; try lia.
    { replace (off + 2 ^ p + (n - 2 ^ p) - 1) with (off + n - 1) by lia. auto. }
    replace (off + 2 ^ p + (n - 2 ^ p)) with (off + n) in * by lia.
    rewrite (Nat.add_comm (2 ^ p) off). rewrite G1. cbn [bind].
    rewrite getNodePosition_ok by lia. cbn [bind].
    exists leafs, (nodes ++ [pos (off + 2 ^ p) p]), ls, (ns ++ [mthh (slice lh off (off + 2 ^ p))]).
    split; [reflexivity|]. split; [exact G2|]. split.
    { apply mapM_app; auto. cbn [mapM].
      rewrite (Reads_node s lh _ (off + 2 ^ p) p (2 ^ (e - p) * q + 1) HR) by lia.
      replace (off + 2 ^ p - 2 ^ p) with off by lia. reflexivity. }
    rewrite app_assoc. unfold foldup in *. rewrite fold_left_app, G4. cbn [fold_left].
    rewrite (slice_split lh off (off + 2 ^ p) (off + n)) by lia.
    symmetry. apply (mthh_app H p); rewrite slice_length; lia.
  Qed.

  Lemma merkle_tree_hash_ok s lh off e q n :
    off = 2 ^ e * q -> 1 <= n <= 2 ^ e -> off + n <= length lh -> Reads s lh (off + n - 1) ->
    merkle_tree_hash H s off (off + n) = Ok (mthh (slice lh off (off + n))).
  Proof.
    intros Ho Hn Hl HR. unfold merkle_tree_hash.
    destruct (Nat.ltb_spec off (off + n)); [|lia]. cbn [negb].
    replace (off + n - off) with n by lia.
    destruct (Nat.eqb_spec n 1) as [->|].
    - rewrite Nat.add_1_r, (Reads_leaf s lh _ off HR) by lia.
      rewrite slice_nth by lia. reflexivity.
    - assert (1 <= e). { destruct e; [simpl in *; lia|lia]. }
      destruct (getPath_ok s lh (S (off + n)) off e q n) as (leafs & nodes & ls & ns & G1 & G2 & G3 & G4);
        auto; try lia.
      unfold getPath. rewrite G1. cbn [bind].
      replace (off + n) with (S (off + n - 1)) at 1 by lia.
      rewrite (Reads_leaf s lh _ _ HR) by lia. cbn [bind]. rewrite G2. cbn [bind].
      rewrite G3. cbn [bind]. unfold Merkle_Model.hash_fold. rewrite rev_involutive.
      cbn. f_equal. exact G4.
  Qed.

  (** ** The audit path, as a function of the leaf hashes *)
  Fixpoint ipath (fuel m : nat) (l : list bytes) : list bytes :=
    match fuel with
    | 0 => []
    | S f =>
      if length l =? 1 then [] else
      let k := 2 ^ Nat.log2 (length l - 1) in
      if m <? k then ipath f m (firstn k l) ++ [mthh (skipn k l)]
      else ipath f (m - k) (skipn k l) ++ [mthh (firstn k l)]
    end.

  Lemma split_k_log2 n : 2 <= n -> split_k n = 2 ^ Nat.log2 (n - 1).
  Proof.
    intros. unfold split_k, len_bin, bit_length. rewrite highest_bit_set_pos by lia. f_equal. lia.
  Qed.

  Lemma firstn_of_slice (lh : list bytes) a b k : a + k <= b -> firstn k (slice lh a b) = slice lh a (a + k).
  Proof. intros. unfold slice. rewrite firstn_firstn. f_equal. lia. Qed.
  Lemma skipn_of_slice (lh : list bytes) a b k : a + k <= b -> skipn k (slice lh a b) = slice lh (a + k) b.
  Proof. intros. unfold slice. rewrite skipn_firstn_comm, skipn_skipn. f_equal. lia. Qed.

  (** [Q] says which ranges the store can serve. *)
  Lemma path_ok s lh m0 : Reads s lh m0 ->
    forall fuel m off e q n,
    off = 2 ^ e * q -> 1 <= n <= 2 ^ e -> off + n <= length lh -> m < n -> n < fuel ->
    off + n - 1 <= m0 ->
    exists ps, path_f fuel m off (off + n) = Ok ps /\
      mapM (fun '(a, b) => merkle_tree_hash H s a b) ps = Ok (ipath fuel m (slice lh off (off + n))).
  Proof.
    intros HR. induction fuel as [|f IH]; intros m off e q n Ho Hn Hl Hm Hf H0; [lia|].
    cbn [path_f ipath]. rewrite slice_length by lia. replace (off + n - off) with n by lia.
    destruct (Nat.eqb_spec n 1) as [->|]; [exists []; auto|].
    rewrite split_k_log2 by lia.
    pose proof (split_bounds n ltac:(lia)) as [B1 B2]. set (p := Nat.log2 (n - 1)) in *.
    pose proof (pow2_pos p). rewrite firstn_of_slice, skipn_of_slice by lia.
    assert (Hpe : p < e).
    { destruct (le_lt_dec e p); auto. exfalso.
      assert (2 ^ e <= 2 ^ p) by (apply Nat.pow_le_mono_r; lia). lia. }
    assert (Eo : off = 2 ^ p * (2 ^ (e - p) * q)).
    { rewrite Ho. replace (2 ^ e) with (2 ^ p * 2 ^ (e - p)).
      - lia. - rewrite <- Nat.pow_add_r. f_equal. lia. }
    assert (HR1 : forall x, x <= m0 -> Reads s lh x).
    { intros x Hx. destruct HR as [R1 R2]. split; auto. intros; eapply R2; eauto. lia. }
    assert (ML : merkle_tree_hash H s off (off + 2 ^ p) = Ok (mthh (slice lh off (off + 2 ^ p)))).
    { eapply merkle_tree_hash_ok with (e := p); eauto; try lia. apply HR1. lia. }
    assert (MR : merkle_tree_hash H s (off + 2 ^ p) (off + n) = Ok (mthh (slice lh (off + 2 ^ p) (off + n)))).
    { replace (off + n) with (off + 2 ^ p + (n - 2 ^ p)) by lia.
      eapply merkle_tree_hash_ok with (e := p) (q := 2 ^ (e - p) * q + 1); eauto; try lia. apply HR1. lia. }
    destruct (Nat.ltb_spec m (2 ^ p)).
    - destruct (IH m off p (2 ^ (e - p) * q) (2 ^ p)) as (ps & P1 & P2); try lia.
      rewrite P1. cbn [bind]. exists (ps ++ [(off + 2 ^ p, off + n)]). split; [reflexivity|].
      apply mapM_app; auto. cbn [mapM]. rewrite MR. reflexivity.
    - destruct (IH (m - 2 ^ p) (off + 2 ^ p) p (2 ^ (e - p) * q + 1) (n - 2 ^ p)) as (ps & P1 & P2); try lia.
      replace (off + 2 ^ p + (n - 2 ^ p)) with (off + n) in * by lia.
      rewrite P1. cbn [bind]. exists (ps ++ [(off, off + 2 ^ p)]). split; [reflexivity|].
      apply mapM_app; auto. cbn [mapM]. rewrite ML. reflexivity.
  Qed.

  Lemma inclusion_proof_ok s lh m n : Reads s lh (n - 1) -> m < n -> n <= length lh ->
    inclusion_proof H s m n = Ok (ipath (S n) m (firstn n lh)).
  Proof.
    intros HR Hm Hn. unfold inclusion_proof.
    destruct (path_ok s lh (n - 1) HR (S n) m 0 n 0 n) as (ps & P1 & P2); try lia.
    { pose proof (pow2_gt n). lia. }
    simpl (0 + n) in *. rewrite P1. cbn [bind]. rewrite P2, firstn_slice. reflexivity.
  Qed.

  (** ** The consistency proof, as a function of the leaf hashes *)
  Fixpoint cpath (fuel m : nat) (l : list bytes) (b : bool) : list bytes :=
    match fuel with
    | 0 => []
    | S f =>
      if m =? length l then (if b then [] else [mthh l]) else
      let k := 2 ^ Nat.log2 (length l - 1) in
      if m <=? k then cpath f m (firstn k l) b ++ [mthh (skipn k l)]
      else cpath f (m - k) (skipn k l) false ++ [mthh (firstn k l)]
    end.

  Lemma subproof_ok s lh m0 : Reads s lh m0 ->
    forall fuel m off e q n b,
    off = 2 ^ e * q -> 1 <= n <= 2 ^ e -> off + n <= length lh -> 1 <= m <= n -> n < fuel ->
    off + n - 1 <= m0 ->
    exists ps, subproof_f fuel m off (off + n) b = Ok ps /\
      mapM (fun '(a, b) => merkle_tree_hash H s a b) ps = Ok (cpath fuel m (slice lh off (off + n)) b).
  Proof.
    intros HR. induction fuel as [|f IH]; intros m off e q n b Ho Hn Hl Hm Hf H0; [lia|].
    cbn [subproof_f cpath]. rewrite slice_length by lia. replace (off + n - off) with n by lia.
    assert (HR1 : forall x, x <= m0 -> Reads s lh x).
    { intros x Hx. destruct HR as [R1 R2]. split; auto. intros; eapply R2; eauto. lia. }
    destruct (Nat.eqb_spec m n) as [->|].
    { destruct b; [exists []; auto|]. exists [(off, off + n)]. split; auto. cbn [mapM].
      rewrite (merkle_tree_hash_ok s lh off e q n); auto. }
    rewrite split_k_log2 by lia.
    pose proof (split_bounds n ltac:(lia)) as [B1 B2]. set (p := Nat.log2 (n - 1)) in *.
    pose proof (pow2_pos p). rewrite firstn_of_slice, skipn_of_slice by lia.
    assert (Hpe : p < e).
    { destruct (le_lt_dec e p); auto. exfalso.
      assert (2 ^ e <= 2 ^ p) by (apply Nat.pow_le_mono_r; lia). lia. }
    assert (Eo : off = 2 ^ p * (2 ^ (e - p) * q)).
    { rewrite Ho. replace (2 ^ e) with (2 ^ p * 2 ^ (e - p)).
      - lia. - rewrite <- Nat.pow_add_r. f_equal. lia. }
    assert (ML : merkle_tree_hash H s off (off + 2 ^ p) = Ok (mthh (slice lh off (off + 2 ^ p)))).
    { eapply merkle_tree_hash_ok with (e := p); eauto; try lia. apply HR1. lia. }
    assert (MR : merkle_tree_hash H s (off + 2 ^ p) (off + n) = Ok (mthh (slice lh (off + 2 ^ p) (off + n)))).
    { replace (off + n) with (off + 2 ^ p + (n - 2 ^ p)) by lia.
      eapply merkle_tree_hash_ok with (e := p) (q := 2 ^ (e - p) * q + 1); eauto; try lia. apply HR1. lia. }
    destruct (Nat.leb_spec m (2 ^ p)).
    - destruct (IH m off p (2 ^ (e - p) * q) (2 ^ p) b) as (ps & P1 & P2); try lia.
      rewrite P1. cbn [bind]. exists (ps ++ [(off + 2 ^ p, off + n)]). split; [reflexivity|].
      apply mapM_app; auto. cbn [mapM]. rewrite MR. reflexivity.
    - destruct (IH (m - 2 ^ p) (off + 2 ^ p) p (2 ^ (e - p) * q + 1) (n - 2 ^ p) false) as (ps & P1 & P2); try lia.
      replace (off + 2 ^ p + (n - 2 ^ p)) with (off + n) in * by lia.
      rewrite P1. cbn [bind]. exists (ps ++ [(off, off + 2 ^ p)]). split; [reflexivity|].
      apply mapM_app; auto. cbn [mapM]. rewrite ML. reflexivity.
  Qed.

  Lemma consistency_proof_ok s lh m n : Reads s lh (n - 1) -> 1 <= m <= n -> n <= length lh ->
    consistency_proof H s m n = Ok (cpath (S n) m (firstn n lh) true).
  Proof.
    intros HR Hm Hn. unfold consistency_proof.
    destruct (subproof_ok s lh (n - 1) HR (S n) m 0 n 0 n true) as (ps & P1 & P2); try lia.
    { pose proof (pow2_gt n). lia. }
    simpl (0 + n) in *. rewrite P1. cbn [bind]. rewrite P2, firstn_slice. reflexivity.
  Qed.
End Store.
