(** Properties C01-C06: the transaction log's Merkle tree.
    Each theorem is about the model of ledger/ in [Merkle_Model] and the RFC 6962
    specification in [Merkle_Spec]; [H] is any digest function. *)
From Coq Require Import List Arith NArith Lia Bool.
From Verif Require Import Base Bits_Model Bits_Proofs Merkle_Spec Merkle_Model Merkle_Proofs
  Merkle_Store Merkle_Verify Merkle_Ledger.
Import ListNotations.

(** A small digest for the concrete examples: 3 bytes, order sensitive. *)
Definition toyH (x : bytes) : bytes :=
  let s := fold_left (fun acc b => (acc * 31 + b + 7) mod 16777213)%N x 5%N in
  [s / 65536; (s / 256) mod 256; s mod 256]%N.

Example toyH_fixed : FixedLength toyH.
Proof. intros x y. reflexivity. Qed.

Section Props.
  Variable H : bytes -> bytes.

  (** ** C01 *)
  (** The RFC 6962 hash of a list of leaves is unique. *)
  Theorem C01_MTH_functional D r r' : MTH H D r -> MTH H D r' -> r = r'.
  Proof. intros A B. apply MTH_mthh in A. apply MTH_mthh in B. congruence. Qed.

  Definition leaves_of (os : list tree_op) : list bytes :=
    flat_map (fun o => match o with OpAppend x => [x] | OpExtend xs => xs end) os.

  (** Whatever mix of append and extend calls built the tree, no call raises, the size is
      the number of leaves, and the root is the RFC 6962 hash of all leaves in order. *)
  Theorem C01_root_is_MTH : forall os : list tree_op,
    exists t r, tree_run H empty_tree os = Ok t /\ root_hash H t = Ok r /\
      MTH H (leaves_of os) r /\ tree_size t = length (leaves_of os).
  Proof.
    intros os. destruct (tree_run_ok H os _ _ (TreeOf_empty H)) as (t & E & T). simpl in T.
    exists t, (mthh H (map (hash_leaf H) (leaves_of os))).
    split; [exact E|]. split; [apply TreeOf_root; exact T|]. split; [apply mthh_MTH|].
    destruct T as [-> _]. apply map_length.
  Qed.

  (** The root depends on the leaves only, not on how they were added. *)
  Theorem C01_root_history_independent : forall os os' t t' r r',
    leaves_of os = leaves_of os' ->
    tree_run H empty_tree os = Ok t -> tree_run H empty_tree os' = Ok t' ->
    root_hash H t = Ok r -> root_hash H t' = Ok r' -> r = r'.
  Proof.
    intros os os' t t' r r' E E1 E2 E3 E4.
    destruct (C01_root_is_MTH os) as (u & s & F1 & F2 & F3 & _).
    destruct (C01_root_is_MTH os') as (u' & s' & G1 & G2 & G3 & _).
    rewrite E in F3. pose proof (C01_MTH_functional _ _ _ F3 G3). congruence.
  Qed.

  (** Hashing a whole list at once gives the same root. *)
  Theorem C01_hash_full_tree : forall leaves,
    exists r hs, hash_full H (S (length leaves)) leaves 0 (length leaves) = Ok (r, hs) /\ MTH H leaves r.
  Proof. intros. rewrite hash_full_tree_ok. eexists _, _. split; [reflexivity|apply mthh_MTH]. Qed.

  (** ** C02 *)
  (** Appending never fails. *)
  Theorem C02_append_total : forall leaves,
    exists t s, mt_appends H (empty_tree, empty_store) leaves = Ok (t, s) /\ tree_size t = length leaves.
  Proof.
    intros. destruct (mt_appends_ok H leaves _ _ (MtOf_empty H)) as ([t s] & E & [T _]).
    exists t, s. split; auto. destruct T as [T _]. simpl in T. rewrite map_length in T. auto.
  Qed.

  (** For every leaf [i] and every tree size [n] the log has had since then, the served
      audit path is accepted against the root of the first [n] leaves. *)
  Theorem C02_audit_path_verifies : forall leaves t s i n leaf,
    mt_appends H (empty_tree, empty_store) leaves = Ok (t, s) ->
    nth_error leaves i = Some leaf -> i < n -> n <= length leaves ->
    exists path root, inclusion_proof H s i n = Ok path /\ MTH H (firstn n leaves) root /\
      verify_leaf_inclusion H leaf i path n root = Ok tt /\
      length path = audit_path_length i n.
  Proof.
    intros leaves t s i n leaf E N Hi Hn. apply mt_appends_det in E.
    destruct (inclusion_complete H _ _ _ _ _ E Hi Hn N) as (P & E1 & E2 & E3).
    exists P, (mthh H (map (hash_leaf H) (firstn n leaves))).
    split; [exact E1|]. split; [apply mthh_MTH|]. split; [exact E3|].
    apply verify_inclusion_calc in E3. destruct E3 as [_ E3].
    apply audit_path_length_ok in E3. exact E3.
  Qed.

  (** The path returned by append itself is accepted for the new leaf and the new root. *)
  Theorem C02_append_path_verifies : forall leaves ts leaf path ts',
    mt_appends H (empty_tree, empty_store) leaves = Ok ts ->
    mt_append H ts leaf = Ok (path, ts') ->
    exists root, root_hash H (fst ts') = Ok root /\ MTH H (leaves ++ [leaf]) root /\
      verify_leaf_inclusion H leaf (length leaves) path (S (length leaves)) root = Ok tt.
  Proof.
    intros leaves ts leaf path ts' E1 E2. apply mt_appends_det in E1.
    destruct (mt_append_ok H ts _ leaf E1) as (ts1 & E3 & [T _]).
    rewrite E2 in E3. injection E3 as -> <-.
    exists (mthh H (map (hash_leaf H) (leaves ++ [leaf]))).
    rewrite map_app. split; [apply TreeOf_root; exact T|].
    split; [rewrite <- (map_app (hash_leaf H) leaves [leaf]); apply mthh_MTH|].
    apply verify_inclusion_calc. split; [lia|].
    set (lh := map (hash_leaf H) leaves) in *.
    assert (L : length lh = length leaves) by apply map_length.
    pose proof (calc_complete H (S (S (length lh))) (lh ++ [hash_leaf H leaf]) (length lh)) as C.
    rewrite app_length in C. simpl length in C.
    specialize (C ltac:(lia) ltac:(lia)).
    rewrite app_nth2, Nat.sub_diag in C by lia. simpl nth in C.
    rewrite (ipath_fuel H (S (S (length lh)))) in C by (rewrite app_length; simpl; lia).
    rewrite app_length in C. simpl length in C. rewrite Nat.add_1_r in C.
    rewrite ipath_last in C. rewrite <- L. exact C.
  Qed.

  (** The tree head of every earlier size stays available and is the RFC root. *)
  Theorem C02_tree_head : forall leaves t s n,
    mt_appends H (empty_tree, empty_store) leaves = Ok (t, s) -> 1 <= n <= length leaves ->
    exists root, get_tree_head H t s n = Ok (n, Some root) /\ MTH H (firstn n leaves) root.
  Proof.
    intros leaves t s n E Hn. apply mt_appends_det in E. destruct E as [[T _] SO]. cbn [fst snd] in *.
    rewrite map_length in T.
    exists (mthh H (map (hash_leaf H) (firstn n leaves))). split; [|apply mthh_MTH].
    unfold get_tree_head. rewrite T. destruct (Nat.ltb_spec (length leaves) n); [lia|].
    destruct (Nat.eqb_spec n 0); [lia|].
    pose proof (StoreOf_Reads H _ _ SO) as R. rewrite map_length in R.
    pose proof (merkle_tree_hash_ok H s (map (hash_leaf H) leaves) 0 n 0 n) as M.
    rewrite map_length in M. simpl (0 + n) in M. rewrite M; auto; try lia.
    - cbn [bind]. rewrite slice_map, <- firstn_slice. reflexivity.
    - pose proof (pow2_gt n). lia.
    - destruct R as [R1 R2]. split; auto. intros; eapply R2; eauto. lia.
  Qed.

  (** A range hash, once served, is served unchanged after any further appends: the
      lru_cache on [merkle_tree_hash] cannot return a stale value in a growing log. *)
  Theorem C02_merkle_tree_hash_stable : forall leaves more t s t' s' a b r,
    mt_appends H (empty_tree, empty_store) leaves = Ok (t, s) ->
    mt_appends H (t, s) more = Ok (t', s') ->
    merkle_tree_hash H s a b = Ok r -> merkle_tree_hash H s' a b = Ok r.
  Proof.
    intros leaves more t s t' s' a b r E1 E2 E3. apply mt_appends_det in E1.
    destruct (mt_appends_ok H more _ _ E1) as (ts & E4 & M). rewrite E2 in E4. injection E4 as <-.
    destruct (StoreOf_le H s s' _ _ (proj2 E1) (proj2 M)) as [L1 L2].
    eapply merkle_tree_hash_le; eauto.
  Qed.

  (** ** C03 *)
  (** An accepted audit path proves membership at the claimed index, unless it exhibits
      two different inputs with the same digest, which the proof then computes.
      It is also the unique acceptable path. *)
  Theorem C03_inclusion_sound : FixedLength H ->
    forall D root leaf i path, MTH H D root ->
    verify_leaf_inclusion H leaf i path (length D) root = Ok tt ->
    {c | Collision H c} + {nth_error D i = Some leaf}.
  Proof.
    intros HL D root leaf i path M V. apply MTH_mthh in M. subst root.
    apply verify_inclusion_calc in V. destruct V as [Hi V].
    rewrite <- (map_length (hash_leaf H) D) in V.
    destruct (calc_sound H HL _ (map (hash_leaf H) D) i path (hash_leaf H leaf) eq_refl) as [C|[N _]]; auto.
    - apply AllLen_leaves; auto.
    - rewrite map_length. auto.
    - apply leaf_len; auto.
    - destruct (nth_error D i) as [d|] eqn:Ed.
      + rewrite (nth_map_leaf H _ _ _ Ed) in N. destruct (H_inj_dec H _ _ N) as [C|F]; auto.
        right. congruence.
      + apply nth_error_None in Ed. lia.
  Qed.

  Theorem C03_path_unique : FixedLength H ->
    forall D root leaf i p q, MTH H D root ->
    verify_leaf_inclusion H leaf i p (length D) root = Ok tt ->
    verify_leaf_inclusion H leaf i q (length D) root = Ok tt ->
    {c | Collision H c} + {p = q}.
  Proof.
    intros HL D root leaf i p q M V W. apply MTH_mthh in M. subst root.
    apply verify_inclusion_calc in V. destruct V as [Hi V].
    apply verify_inclusion_calc in W. destruct W as [_ W].
    rewrite <- (map_length (hash_leaf H) D) in V, W, Hi.
    destruct (calc_sound H HL _ (map (hash_leaf H) D) i p (hash_leaf H leaf) eq_refl) as [C|[_ N]];
      auto using AllLen_leaves, leaf_len.
    destruct (calc_sound H HL _ (map (hash_leaf H) D) i q (hash_leaf H leaf) eq_refl) as [C|[_ N']];
      auto using AllLen_leaves, leaf_len.
    right. congruence.
  Qed.

  (** An index outside the tree is refused whatever the path. *)
  Theorem C03_out_of_range : forall leaf i path n root,
    n <= i -> verify_leaf_inclusion H leaf i path n root = Err ValueError.
  Proof.
    intros. unfold verify_leaf_inclusion, verify_leaf_hash_inclusion.
    destruct (Nat.leb_spec n i); [reflexivity|lia].
  Qed.

  (** Two logs with the same size and the same root are the same log, or a collision. *)
  Theorem C03_root_binding : FixedLength H -> forall D D' root,
    length D = length D' -> MTH H D root -> MTH H D' root -> {c | Collision H c} + {D = D'}.
  Proof.
    intros HL D D' root L M M'. apply MTH_mthh in M. apply MTH_mthh in M'.
    destruct (mthh_binding H HL (length D) (map (hash_leaf H) D) (map (hash_leaf H) D')) as [C|E];
      rewrite ?map_length; auto using AllLen_leaves; try congruence.
    apply leaves_inj; auto.
  Qed.

  (** ** C04 *)
  (** The consistency proof served between any two sizes is accepted for their roots. *)
  Theorem C04_consistency_complete : forall leaves t s m n,
    mt_appends H (empty_tree, empty_store) leaves = Ok (t, s) ->
    0 < m <= n -> n <= length leaves ->
    exists proof rm rn, consistency_proof H s m n = Ok proof /\
      MTH H (firstn m leaves) rm /\ MTH H (firstn n leaves) rn /\
      verify_tree_consistency H m n rm rn proof = Ok tt.
  Proof.
    intros leaves t s m n E Hm Hn. apply mt_appends_det in E. destruct E as [_ SO]. cbn [snd] in SO.
    pose proof (StoreOf_Reads H _ _ SO) as R. rewrite map_length in R.
    set (lh := map (hash_leaf H) leaves) in *.
    assert (L : length (firstn n lh) = n) by (unfold lh; rewrite firstn_length, map_length; lia).
    exists (cpath H (S n) m (firstn n lh) true),
      (mthh H (map (hash_leaf H) (firstn m leaves))), (mthh H (map (hash_leaf H) (firstn n leaves))).
    split.
    { apply consistency_proof_ok; auto.
      - destruct R as [R1 R2]. split; auto. intros; eapply R2; eauto. lia.
      - unfold lh. rewrite map_length. auto. }
    split; [apply mthh_MTH|]. split; [apply mthh_MTH|].
    pose proof (consistency_complete H (firstn n lh) m ltac:(lia)) as C.
    rewrite L, firstn_firstn_le in C by lia. rewrite <- !firstn_map. exact C.
  Qed.

  (** ** C05 *)
  (** If the old root is the root of some log [A] and the new root that of [D], an accepted
      consistency proof shows that [A] is a prefix of [D], or computes a collision. *)
  Theorem C05_consistency_sound : FixedLength H -> forall A D rA rD proof,
    MTH H A rA -> MTH H D rD ->
    verify_tree_consistency H (length A) (length D) rA rD proof = Ok tt ->
    {c | Collision H c} + {exists rest, D = A ++ rest}.
  Proof.
    intros HL A D rA rD proof MA MD V. apply MTH_mthh in MA. apply MTH_mthh in MD. subst rA rD.
    destruct (le_lt_dec (length A) (length D)) as [Le|Lt].
    2:{ exfalso. unfold verify_tree_consistency in V.
        destruct (Nat.ltb_spec (length D) (length A)); [discriminate|lia]. }
    destruct (Nat.eq_dec (length A) (length D)) as [E|E].
    - unfold verify_tree_consistency in V. rewrite E, Nat.ltb_irrefl, Nat.eqb_refl in V.
      destruct (bytes_eqb _ _) eqn:B in V; [|discriminate]. apply bytes_eqb_eq in B.
      destruct (mthh_binding H HL (length A) (map (hash_leaf H) A) (map (hash_leaf H) D)) as [C|F];
        rewrite ?map_length; auto using AllLen_leaves.
      destruct (leaves_inj H _ _ F) as [C| ->]; auto. right. exists []. rewrite app_nil_r. auto.
    - destruct (Nat.eq_dec (length A) 0) as [Z|Z].
      + right. destruct A; [|discriminate]. exists D. reflexivity.
      + rewrite <- (map_length (hash_leaf H) A), <- (map_length (hash_leaf H) D) in V.
        apply (consistency_sound H HL) in V; auto using AllLen_leaves; [|rewrite !map_length; lia].
        destruct V as [C|F]; auto. rewrite map_length, firstn_map in F.
        apply leaves_inj in F. destruct F as [C|F]; auto. right.
        exists (skipn (length A) D). rewrite F at 1. symmetry. apply firstn_skipn.
  Qed.

  (** ** C06 *)
  (** After any number of appends the leaf positions are exactly 1..n, the node positions
      exactly 1..(expected node count), the consistency check passes, and each complete
      subtree's hash is at the position computed for it. *)
  Theorem C06_store_dense : forall leaves t s,
    mt_appends H (empty_tree, empty_store) leaves = Ok (t, s) ->
    map fst (s_leaves s) = seq 1 (length leaves) /\
    map fst (s_nodes s) = seq 1 (get_expected_node_count (length leaves)) /\
    verify_consistency s (length leaves) = Ok tt.
  Proof.
    intros leaves t s E. apply mt_appends_det in E. destruct E as [_ (S1 & S2 & S3)]. cbn [snd] in *.
    rewrite S1, S2, expected_ok. rewrite map_length in S3.
    assert (F : forall l, map fst (dlist l) = seq 1 (length l)).
    { intros l. unfold dlist. generalize 1. induction l; intros k; simpl; f_equal; auto. }
    rewrite !F, map_length. unfold all_nodes. rewrite nodes_upto_length, map_length.
    split; [reflexivity|]. split; [reflexivity|].
    unfold verify_consistency. rewrite S3, Nat.eqb_refl, expected_ok, S2. unfold kv_size.
    rewrite dlist_length. unfold all_nodes. rewrite nodes_upto_length, map_length, Nat.eqb_refl.
    reflexivity.
  Qed.

  Theorem C06_node_contents : forall leaves t s q h,
    mt_appends H (empty_tree, empty_store) leaves = Ok (t, s) ->
    1 <= h -> (q + 1) * 2 ^ h <= length leaves ->
    exists p v, getNodePosition ((q + 1) * 2 ^ h) h = Ok p /\ kv_get p (s_nodes s) = Some v /\
      MTH H (slice leaves (q * 2 ^ h) ((q + 1) * 2 ^ h)) v.
  Proof.
    intros leaves t s q h E Hh Hq. apply mt_appends_det in E. destruct E as [_ SO]. cbn [snd] in SO.
    pose proof (StoreOf_Reads H _ _ SO) as [_ R]. rewrite map_length in R. pose proof (pow2_pos h).
    assert (0 < (q + 1) * 2 ^ h) by nia.
    exists (pos ((q + 1) * 2 ^ h) h), (mthh H (map (hash_leaf H) (slice leaves (q * 2 ^ h) ((q + 1) * 2 ^ h)))).
    split; [apply getNodePosition_ok; lia|]. split; [|apply mthh_MTH].
    rewrite (R _ _ (q + 1)) by lia. rewrite <- slice_map.
    replace ((q + 1) * 2 ^ h - 2 ^ h) with (q * 2 ^ h) by lia. reflexivity.
  Qed.

  (** Different complete subtrees never share a position. *)
  Theorem C06_positions_injective : forall q h q' h' p, 1 <= h -> 1 <= h' ->
    getNodePosition ((q + 1) * 2 ^ h) h = Ok p -> getNodePosition ((q' + 1) * 2 ^ h') h' = Ok p ->
    q = q' /\ h = h'.
  Proof.
    intros q h q' h' p Hh Hh'. pose proof (pow2_pos h). pose proof (pow2_pos h').
    assert (P1 : 0 < (q + 1) * 2 ^ h) by nia. assert (P2 : 0 < (q' + 1) * 2 ^ h') by nia.
    rewrite !getNodePosition_ok by lia. intros E1 E2. injection E1 as E1. injection E2 as E2.
    assert (X : forall n n' i i', 0 < n -> n < n' ->
       (exists x, n = 2 ^ i * x) -> 1 <= i' -> pos n i < pos n' i').
    { intros n n' i i' Hn Hlt [x Hx] Hi'. pose proof (divides_tz i n x Hn Hx) as T.
      pose proof (tz_count n Hn) as C.
      assert (M : n - count_bits_set n <= (n' - 1) - count_bits_set (n' - 1)).
      { rewrite <- !(nodes_upto_length (fun _ => []) []). assert (n <= n' - 1) by lia.
        clear -H2. induction H2; [lia|]. rewrite nodes_upto_S, app_length. lia. }
      pose proof (count_bits_le (n - 1)). pose proof (count_bits_le n). unfold pos. lia. }
    destruct (lt_eq_lt_dec ((q + 1) * 2 ^ h) ((q' + 1) * 2 ^ h')) as [[L|E]|L].
    - pose proof (X _ _ h h' P1 L (ex_intro _ (q + 1) (Nat.mul_comm _ _)) Hh'). lia.
    - rewrite E in E1. assert (h = h') by (unfold pos in *; lia). subst. split; auto. nia.
    - pose proof (X _ _ h' h P2 L (ex_intro _ (q' + 1) (Nat.mul_comm _ _)) Hh). lia.
  Qed.
End Props.

(** ** Concrete instances *)
Definition ex_leaves : list bytes :=
  map (fun i => [N.of_nat i; 7%N]) (seq 1 11).

Example ex_C01 : exists t r,
  tree_run toyH empty_tree [OpAppend [1%N]; OpExtend (firstn 6 ex_leaves); OpAppend []] = Ok t /\
  root_hash toyH t = Ok r /\ tree_size t = 8.
Proof. eexists _, _. split; [vm_compute; reflexivity|]. split; vm_compute; reflexivity. Qed.

Example ex_C02_C04 : exists t s p r c rm,
  mt_appends toyH (empty_tree, empty_store) ex_leaves = Ok (t, s) /\
  inclusion_proof toyH s 4 11 = Ok p /\ length p = 4 /\ root_hash toyH t = Ok r /\
  verify_leaf_inclusion toyH (nth 4 ex_leaves []) 4 p 11 r = Ok tt /\
  verify_leaf_inclusion toyH (nth 5 ex_leaves []) 4 p 11 r = Err ProofError /\
  consistency_proof toyH s 6 11 = Ok c /\ length c = 4 /\
  merkle_tree_hash toyH s 0 6 = Ok rm /\
  verify_tree_consistency toyH 6 11 rm r c = Ok tt /\
  verify_tree_consistency toyH 7 11 rm r c = Err ProofError.
Proof.
  eexists _, _, _, _, _, _. split; [vm_compute; reflexivity|].
  repeat (split; [vm_compute; reflexivity|]). vm_compute; reflexivity.
Qed.

Example ex_C06 : exists t s,
  mt_appends toyH (empty_tree, empty_store) ex_leaves = Ok (t, s) /\
  map fst (s_nodes s) = [1; 2; 3; 4; 5; 6; 7; 8].
Proof. eexists _, _. split; vm_compute; reflexivity. Qed.

Print Assumptions C01_root_is_MTH.
Print Assumptions C02_audit_path_verifies.
Print Assumptions C03_inclusion_sound.
Print Assumptions C04_consistency_complete.
Print Assumptions C05_consistency_sound.
Print Assumptions C06_store_dense.
