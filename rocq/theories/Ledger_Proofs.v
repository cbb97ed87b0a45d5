(** Lemmas about the ledger model. *)
From Coq Require Import List Arith NArith Lia Bool.
From Verif Require Import Base Bits_Model Bits_Proofs Merkle_Spec Merkle_Model Merkle_Proofs Merkle_Store
  Merkle_Verify Merkle_Ledger Ledger_Model Ledger_Spec.
Import ListNotations.
Local Open Scope res_scope.

(** ** key-value store iteration *)
Lemma kv_iter_combine s l : kv_iter (combine (seq s (length l)) l) = combine (seq s (length l)) l.
Proof.
  revert s. induction l as [|x l IH]; intros s; [reflexivity|].
  cbn [length seq combine kv_iter fold_right]. unfold kv_iter in IH. rewrite IH.
  destruct l as [|y l]; [reflexivity|]. cbn [length seq combine kv_insert fst].
  replace (s <=? S s) with true by (symmetry; apply Nat.leb_le; lia). reflexivity.
Qed.
Lemma kv_iter_dlist l : kv_iter (dlist l) = dlist l.
Proof. apply kv_iter_combine. Qed.

Section Ledger.
  Variable H : bytes -> bytes.
  Variable B : Type.
  Variable ser_log : txn B -> bytes.
  Variable deser_log : bytes -> txn B.
  Variable ser_tree : txn B -> bytes.
  Hypothesis deser_ser : forall x, deser_log (ser_log x) = x.

  Notation mthh := (mthh H).
  Notation peaks := (peaks H).
  Notation all_nodes := (all_nodes H).
  Notation nodes_upto := (nodes_upto H).
  Notation nodes_at := (nodes_at H).
  Notation TreeOf := (TreeOf H).
  Definition lhs (L : list (txn B)) : list bytes := map (fun x => hash_leaf H (ser_tree x)) L.

  Lemma lhs_length L : length (lhs L) = length L.
  Proof. apply map_length. Qed.
  Lemma lhs_app L L' : lhs (L ++ L') = lhs L ++ lhs L'.
  Proof. apply map_app. Qed.

  (** ** Consecutive node writes *)
  Fixpoint nwrites (c : nat) (vs : list bytes) : list write :=
    match vs with
    | [] => []
    | v :: vs' => WNode (S c) v :: nwrites (S c) vs'
    end.

  Lemma nwrites_length c vs : length (nwrites c vs) = length vs.
  Proof. revert c. induction vs; intros; simpl; auto. Qed.

  Lemma apply_writes_app d a b : apply_writes d (a ++ b) = apply_writes (apply_writes d a) b.
  Proof. apply fold_left_app. Qed.

  Lemma apply_nwrites vs : forall k done log leaves,
    apply_writes (mkDisk log leaves (dlist done)) (firstn k (nwrites (length done) vs))
      = mkDisk log leaves (dlist (done ++ firstn k vs)).
  Proof.
    induction vs as [|v vs IH]; intros k done log leaves.
    - destruct k; cbn [nwrites firstn]; rewrite app_nil_r; reflexivity.
    - destruct k as [|k]; cbn [nwrites firstn].
      + rewrite app_nil_r. reflexivity.
      + unfold apply_writes. cbn [fold_left apply_write d_log d_leaves d_nodes].
        rewrite kv_put_dlist. replace (S (length done)) with (length (done ++ [v])).
        * unfold apply_writes in IH. rewrite IH. rewrite <- app_assoc. reflexivity.
        * rewrite app_length. simpl. lia.
  Qed.
  Lemma apply_nwrites_all vs done log leaves :
    apply_writes (mkDisk log leaves (dlist done)) (nwrites (length done) vs)
      = mkDisk log leaves (dlist (done ++ vs)).
  Proof.
    rewrite <- (firstn_all (nwrites (length done) vs)), apply_nwrites.
    rewrite nwrites_length, firstn_all. reflexivity.
  Qed.

  Lemma node_writes_ok lh (f : nat -> bytes) : forall j i,
    i + j <= tz (S (length lh)) ->
    mapM node_write (map (fun h => (S (length lh), h, f h)) (seq (S i) j))
      = Ok (nwrites (length (all_nodes lh) + i) (map f (seq (S i) j))).
  Proof.
    induction j as [|j IH]; intros i Hi; [reflexivity|].
    cbn [seq map mapM node_write]. rewrite getNodePosition_ok by lia. cbn [bind].
    rewrite IH by lia. cbn [bind nwrites map]. repeat f_equal.
    - unfold pos, Merkle_Store.all_nodes. rewrite nodes_upto_length. simpl. rewrite Nat.sub_0_r. lia.
    - lia.
  Qed.

  (** ** Ledgers *)
  Definition TInv (l : ledger) (lh : list bytes) : Prop :=
    TreeOf (l_tree l) lh /\ l_leafCount l = length lh /\ l_seqNo l = length lh /\
    d_leaves (l_disk l) = dlist lh /\ d_nodes (l_disk l) = dlist (all_nodes lh).

  Definition tree_trace (lh : list bytes) (h : bytes) : list write :=
    WLeaf (S (length lh)) h :: nwrites (length (all_nodes lh)) (nodes_at (lh ++ [h]) (S (length lh))).

  Lemma addToTree_ok l lh data : TInv l lh ->
    exists l', addToTree H l data
        = Ok ((S (length lh), mthh (lh ++ [hash_leaf H data]), rev (peaks lh)), l', tree_trace lh (hash_leaf H data))
      /\ TInv l' (lh ++ [hash_leaf H data])
      /\ d_log (l_disk l') = d_log (l_disk l)
      /\ l_disk l' = apply_writes (l_disk l) (tree_trace lh (hash_leaf H data)).
  Proof.
    intros (T & E1 & E2 & E3 & E4). unfold addToTree.
    destruct (append_ok H (l_tree l) lh data T) as (t' & E & T'). rewrite E. cbn [bind].
    rewrite (node_writes_ok lh (fun h => last_node H (lh ++ [hash_leaf H data]) h) _ 0) by lia.
    cbn [bind]. rewrite (TreeOf_root H t' _ T'). cbn [bind].
    assert (EW : leaf_writes (l_leafCount l) [hash_leaf H data] ++
      nwrites (length (all_nodes lh) + 0)
        (map (fun h => last_node H (lh ++ [hash_leaf H data]) h) (seq 1 (tz (S (length lh)))))
      = tree_trace lh (hash_leaf H data)).
    { unfold tree_trace. cbn [leaf_writes app]. rewrite E1, Nat.add_1_r. f_equal.
      rewrite Nat.add_0_r. f_equal. unfold Merkle_Store.nodes_at. apply map_ext_in. intros i Hi.
      unfold last_node. rewrite app_length. simpl length. rewrite Nat.add_1_r. reflexivity. }
    rewrite EW. eexists. split; [rewrite E2, Nat.add_1_r; reflexivity|].
    assert (ED : apply_writes (l_disk l) (tree_trace lh (hash_leaf H data))
      = mkDisk (d_log (l_disk l)) (dlist (lh ++ [hash_leaf H data])) (dlist (all_nodes (lh ++ [hash_leaf H data])))).
    { unfold tree_trace. destruct (l_disk l) as [lg lv nd]. cbn in E3, E4. subst.
      cbn [apply_writes fold_left apply_write d_leaves d_nodes d_log].
      rewrite kv_put_dlist. change (fold_left apply_write) with (fun ws d => apply_writes d ws). cbv beta.
      rewrite apply_nwrites_all, all_nodes_snoc. reflexivity. }
    cbn [l_disk l_tree l_leafCount l_seqNo]. rewrite ED.
    split; [|split; reflexivity]. unfold TInv. cbn [l_disk l_tree l_leafCount l_seqNo d_leaves d_nodes].
    rewrite E1, app_length. simpl length. repeat split; auto; try lia; apply T'.
  Qed.

  (** ** Disks left by a crash *)
  Definition Part (d : disk) (lh : list bytes) : Prop :=
    exists m p, m <= length lh /\ d_leaves d = dlist (firstn m lh) /\
      d_nodes d = dlist (firstn p (nodes_upto lh m)) /\
      length (nodes_upto lh (m - 1)) <= p <= length (nodes_upto lh m).

  Lemma firstn_app_l {A} (l l' : list A) n : n <= length l -> firstn n (l ++ l') = firstn n l.
  Proof.
    intros. rewrite firstn_app. replace (n - length l) with 0 by lia. simpl. apply app_nil_r.
  Qed.

  Lemma Part_app d lh lh' : Part d lh -> Part d (lh ++ lh').
  Proof.
    intros (m & p & A & B1 & C & D). exists m, p. rewrite app_length.
    rewrite firstn_app_l, !nodes_upto_app by lia. auto with arith.
  Qed.

  Lemma nodes_upto_mono lh m : length (nodes_upto lh (m - 1)) <= length (nodes_upto lh m).
  Proof.
    destruct m; [simpl; lia|]. replace (S m - 1) with m by lia. rewrite nodes_upto_S, app_length. lia.
  Qed.

  Lemma full_Part d lh : d_leaves d = dlist lh -> d_nodes d = dlist (all_nodes lh) -> Part d lh.
  Proof.
    intros E1 E2. exists (length lh), (length (all_nodes lh)). rewrite !firstn_all.
    repeat split; auto. apply nodes_upto_mono.
  Qed.

  Lemma tree_trace_prefix d lh h k :
    d_leaves d = dlist lh -> d_nodes d = dlist (all_nodes lh) ->
    Part (apply_writes d (firstn k (tree_trace lh h))) (lh ++ [h]) /\
    d_log (apply_writes d (firstn k (tree_trace lh h))) = d_log d.
  Proof.
    intros E1 E2. destruct k as [|k]; cbn [tree_trace firstn].
    - split; [|reflexivity]. cbn. apply Part_app, full_Part; auto.
    - destruct d as [lg lv nd]. cbn in E1, E2. subst lv nd.
      cbn [apply_writes fold_left apply_write d_leaves d_nodes d_log].
      rewrite kv_put_dlist. change (fold_left apply_write) with (fun ws d => apply_writes d ws). cbv beta.
      rewrite apply_nwrites. split; [|reflexivity].
      unfold Part. cbn [d_leaves d_nodes].
      set (na := nodes_at (lh ++ [h]) (S (length lh))).
      exists (S (length lh)), (length (all_nodes lh) + Nat.min k (length na)).
      rewrite nodes_upto_S, nodes_upto_app by lia. fold na.
      change (nodes_upto lh (length lh)) with (all_nodes lh).
      replace (S (length lh) - 1) with (length lh) by lia.
      rewrite nodes_upto_app by lia. change (nodes_upto lh (length lh)) with (all_nodes lh).
      rewrite !app_length. simpl length. split; [lia|]. split; [|split; [|lia]].
      + f_equal. rewrite firstn_all2; auto. rewrite app_length. simpl. lia.
      + f_equal. rewrite firstn_app_2. f_equal.
        destruct (le_lt_dec k (length na)).
        * rewrite Nat.min_l by lia. reflexivity.
        * rewrite Nat.min_r, firstn_all, firstn_all2 by lia. reflexivity.
  Qed.

  (** ** Re-adding the log *)
  Lemma readd_ok es : forall s done l, TInv l (lhs done) ->
    exists l' ws, readd H B deser_log ser_tree l (combine (seq s (length es)) (map ser_log es)) = Ok (l', ws) /\
      TInv l' (lhs (done ++ es)) /\ d_log (l_disk l') = d_log (l_disk l) /\
      l_disk l' = apply_writes (l_disk l) ws /\
      forall k, Part (apply_writes (l_disk l) (firstn k ws)) (lhs (done ++ es)) /\
                d_log (apply_writes (l_disk l) (firstn k ws)) = d_log (l_disk l).
  Proof.
    induction es as [|x es IH]; intros s done l T.
    - exists l, []. cbn. rewrite app_nil_r. repeat split; auto; try apply T.
      + rewrite firstn_nil. cbn. apply full_Part; apply T.
      + rewrite firstn_nil. reflexivity.
    - cbn [length seq map combine readd]. rewrite deser_ser.
      destruct (addToTree_ok l (lhs done) (ser_tree x) T) as (l1 & E1 & T1 & G1 & D1).
      rewrite E1. cbn [bind].
      destruct (IH (S s) (done ++ [x]) l1) as (l2 & ws2 & E2 & T2 & G2 & D2 & P2).
      { rewrite lhs_app. exact T1. }
      rewrite E2. cbn [bind]. rewrite <- app_assoc in T2, P2. cbn [app] in T2, P2.
      eexists _, _. split; [reflexivity|]. split; [exact T2|]. split; [congruence|].
      split; [rewrite apply_writes_app, <- D1; exact D2|].
      set (tr := tree_trace (lhs done) (hash_leaf H (ser_tree x))) in *.
      intros k. rewrite firstn_app. destruct (le_lt_dec k (length tr)).
      + replace (k - length tr) with 0 by lia. cbn [firstn]. rewrite app_nil_r.
        destruct (tree_trace_prefix (l_disk l) (lhs done) (hash_leaf H (ser_tree x)) k) as [P Q]; try apply T.
        split; [|exact Q]. change (x :: es) with ([x] ++ es).
        rewrite app_assoc, (lhs_app _ es), (lhs_app done). apply Part_app. exact P.
      + rewrite (firstn_all2 (n := k) tr) by lia. rewrite apply_writes_app, <- D1.
        destruct (P2 (k - length tr)) as [A C]. split; [exact A|congruence].
  Qed.

  (** ** Recovery *)
  Definition LInv (l : ledger) (L : list (txn B)) : Prop :=
    TInv l (lhs L) /\ d_log (l_disk l) = dlist (map ser_log L).
  Definition DInv (d : disk) (L : list (txn B)) : Prop :=
    d_log d = dlist (map ser_log L) /\ Part d (lhs L).

  Lemma LInv_DInv l L : LInv l L -> DInv (l_disk l) L.
  Proof. intros [(_ & _ & _ & A & C) D]. split; auto. apply full_Part; auto. Qed.

  Lemma recover_log_ok d L : d_log d = dlist (map ser_log L) ->
    exists l ws, recoverTreeFromTxnLog H B deser_log ser_tree d = Ok (l, ws) /\ LInv l L /\
      l_disk l = apply_writes d ws /\
      forall k, k <> 0 -> k <> 1 -> DInv (apply_writes d (firstn k ws)) L.
  Proof.
    intros EL. unfold recoverTreeFromTxnLog. rewrite EL, kv_iter_dlist.
    unfold dlist at 1. rewrite map_length.
    set (d0 := apply_writes d [WResetNodes; WResetLeaves]).
    assert (TI : TInv (mkLedger empty_tree 0 0 d0) (lhs [])) by (repeat split).
    destruct (readd_ok L 1 [] _ TI) as (l & ws & E & T & G & D & P).
    rewrite E. cbn [bind]. cbn [app] in *. cbn [l_disk] in *.
    assert (G0 : d_log d0 = dlist (map ser_log L)) by (rewrite <- EL; reflexivity).
    eexists _, _. split; [reflexivity|]. split; [split; [exact T|congruence]|].
    split; [exact D|].
    intros [|[|k]] K0 K1; try congruence. cbn [firstn app].
    change (apply_writes d (WResetNodes :: WResetLeaves :: firstn k ws)) with (apply_writes d0 (firstn k ws)).
    destruct (P k) as [P1 P2]. split; [congruence|exact P1].
  Qed.

  (** The path from leaf [n] of a tree of [n+1] leaves only reads complete subtrees of the
      first [n] leaves. *)
  Lemma lastpath_ok s lh x : 
    forall fuel off e q n,
    off = 2 ^ e * q -> n < 2 ^ e -> off + n <= length lh -> n < fuel ->
    Reads H s lh (off + n - 1) ->
    exists ps, path_f fuel n off (off + S n) = Ok ps /\
      mapM (fun '(a, b) => merkle_tree_hash H s a b) ps
        = Ok (ipath H fuel n (slice lh off (off + n) ++ [x])).
  Proof.
    induction fuel as [|f IH]; intros off e q n Ho Hn Hl Hf HR; [lia|].
    cbn [path_f ipath]. rewrite app_length, slice_length by lia.
    replace (off + S n - off) with (S n) by lia. simpl length. replace (off + n - off + 1) with (S n) by lia.
    destruct (Nat.eqb_spec (S n) 1) as [E|]; [exists []; auto|].
    rewrite split_k_log2 by lia.
    pose proof (split_bounds (S n) ltac:(lia)) as [B1 B2]. set (p := Nat.log2 (S n - 1)) in *.
    clearbody p.
    pose proof (pow2_pos p).
    assert (Hpe : p < e).
    { destruct (le_lt_dec e p); auto. exfalso.
      assert (2 ^ e <= 2 ^ p) by (apply Nat.pow_le_mono_r; lia). lia. }
    assert (Eo : off = 2 ^ p * (2 ^ (e - p) * q)).
    { rewrite Ho. replace (2 ^ e) with (2 ^ p * 2 ^ (e - p)).
      - lia. - rewrite <- Nat.pow_add_r. f_equal. lia. }
    destruct (Nat.ltb_spec n (2 ^ p)); [lia|].
    assert (ML : merkle_tree_hash H s off (off + 2 ^ p) = Ok (mthh (slice lh off (off + 2 ^ p)))).
    { eapply merkle_tree_hash_ok with (e := p); eauto; try lia.
      destruct HR as [R1 R2]. split; auto. intros; eapply R2; eauto. lia. }
    destruct (IH (off + 2 ^ p) p (2 ^ (e - p) * q + 1) (n - 2 ^ p)) as (ps & P1 & P2); try lia.
    { replace (off + 2 ^ p + (n - 2 ^ p) - 1) with (off + n - 1) by lia. exact HR. }
    replace (off + 2 ^ p + S (n - 2 ^ p)) with (off + S n) in * by lia.
    replace (off + 2 ^ p + (n - 2 ^ p)) with (off + n) in * by lia.
    rewrite P1. cbn [bind]. exists (ps ++ [(off, off + 2 ^ p)]). split; [reflexivity|].
    rewrite firstn_app_l, skipn_app by (rewrite slice_length; lia).
    rewrite slice_length by lia. replace (2 ^ p - (off + n - off)) with 0 by lia. cbn [skipn].
    rewrite firstn_of_slice, skipn_of_slice by lia.
    apply mapM_app; auto. cbn [mapM]. rewrite ML. reflexivity.
  Qed.

  Lemma Part_Reads d lh m p : m <= length lh -> d_leaves d = dlist (firstn m lh) ->
    d_nodes d = dlist (firstn p (nodes_upto lh m)) -> length (nodes_upto lh (m - 1)) <= p ->
    Reads H (open_store (d_leaves d) (d_nodes d)) (firstn m lh) (m - 1).
  Proof.
    intros Hm E1 E2 Hp. unfold open_store. split; cbn [s_leaves s_nodes].
    - intros i Hi. rewrite E1. apply kv_get_dlist.
    - intros n i q Hn Hi Hq. rewrite E2.
      assert (HP : pos n i - 1 < length (nodes_upto lh (m - 1))).
      { apply nth_error_Some. rewrite (nth_nodes_upto H lh (m - 1) n i q); auto; congruence. }
      replace (pos n i) with (S (pos n i - 1)) by (unfold pos; lia).
      rewrite kv_get_dlist.
      assert (EF : nth_error (firstn p (nodes_upto lh m)) (pos n i - 1) = nth_error (nodes_upto lh m) (pos n i - 1)).
      { rewrite <- (firstn_skipn p (nodes_upto lh m)) at 2. rewrite nth_error_app1; auto.
        rewrite firstn_length. pose proof (nodes_upto_mono lh m). lia. }
      rewrite EF, (nth_nodes_upto H lh m n i q) by (auto; lia). do 2 f_equal.
      rewrite <- (firstn_skipn m lh) at 1. rewrite slice_app_l; auto. rewrite firstn_length. lia.
  Qed.

  Lemma hash_store_ok d L m p : d_log d = dlist (map ser_log L) ->
    m <= length (lhs L) -> d_leaves d = dlist (firstn m (lhs L)) ->
    d_nodes d = dlist (firstn p (nodes_upto (lhs L) m)) ->
    length (nodes_upto (lhs L) (m - 1)) <= p <= length (nodes_upto (lhs L) m) -> m <> 0 ->
    recoverTreeFromHashStore H d =
      if (length L =? m) && (length (nodes_upto (lhs L) m) =? p)
      then Ok (mkLedger (mkTree m (peaks (firstn m (lhs L)))) m m d)
      else Err ConsistencyVerificationFailed.
  Proof.
    intros EL Hm E1 E2 Hp Hm0.
    unfold recoverTreeFromHashStore. 
      cbn [open_store s_leafCount]. unfold kv_size. rewrite E1, dlist_length, firstn_length, Nat.min_l by lia.
      unfold inclusion_proof.
      pose proof (Part_Reads d (lhs L) m p Hm E1 E2 (proj1 Hp)) as HR.
      unfold open_store in HR. rewrite E1 in HR. unfold kv_size in HR.
      rewrite dlist_length, firstn_length, Nat.min_l in HR by lia.
      destruct (lastpath_ok _ (firstn m (lhs L)) [] (S (m + 1)) 0 m 0 m ltac:(lia) (pow2_gt m)
                 ltac:(rewrite firstn_length; lia) ltac:(lia) HR) as (ps & P1 & P2).
      rewrite !Nat.add_0_l in P1, P2. replace (m + 1) with (S m) in * by lia. rewrite P1. cbn [bind].
      unfold open_store. unfold kv_size. rewrite dlist_length, firstn_length, Nat.min_l by lia.
      rewrite P2. cbn [bind].
      assert (EI : ipath H (S (S m)) m (slice (firstn m (lhs L)) 0 m ++ [[] : bytes]) = rev (peaks (firstn m (lhs L)))).
      { rewrite <- firstn_slice. rewrite firstn_firstn, Nat.min_id.
        pose proof (ipath_last H (firstn m (lhs L)) []) as I.
        rewrite ipath_fuel in I |- * by (rewrite app_length, firstn_length; simpl; lia).
        rewrite firstn_length, Nat.min_l in I by lia. exact I. }
      rewrite EI, rev_involutive. unfold update.
      rewrite peaks_length, firstn_length, Nat.min_l, Nat.eqb_refl by lia. cbn [negb bind].
      unfold verify_consistency. cbn [s_leafCount s_nodes]. unfold kv_size.
      rewrite EL, dlist_length, map_length.
      destruct (Nat.eqb_spec (length L) m) as [EQ|]; cbn [negb andb]; [|reflexivity].
      rewrite E2, dlist_length, firstn_length, Nat.min_l by lia.
      rewrite expected_ok, nodes_upto_length.
      destruct (Nat.eqb_spec (m - count_bits_set m) p) as [EQ2|]; cbn [negb]; [|reflexivity].
      reflexivity.
  Qed.

  Lemma recover_ok d L : DInv d L ->
    exists l ws, recoverTree H B deser_log ser_tree d = Ok (l, ws) /\ LInv l L /\
      l_disk l = apply_writes d ws /\
      forall k, k <> 1 -> DInv (apply_writes d (firstn k ws)) L.
  Proof.
    intros DI. pose proof DI as [EL (m & p & Hm & E1 & E2 & Hp)]. unfold recoverTree.
    destruct (recover_log_ok d L EL) as (lr & wr & Rr & LI & Dr & Pr).
    assert (FB : exists l ws, recoverTreeFromTxnLog H B deser_log ser_tree d = Ok (l, ws) /\ LInv l L /\
      l_disk l = apply_writes d ws /\ forall k, k <> 1 -> DInv (apply_writes d (firstn k ws)) L).
    { exists lr, wr. split; [exact Rr|]. split; [exact LI|]. split; [exact Dr|].
      intros [|k] K1; [exact DI|]. apply Pr; lia. }
    unfold kv_size at 1. rewrite E1, dlist_length, firstn_length, Nat.min_l by lia.
    destruct (Nat.eqb_spec m 0) as [->|Hm0]; [exact FB|].
    assert (HS : recoverTreeFromHashStore H d = Err ConsistencyVerificationFailed \/
      (m = length L /\ p = length (nodes_upto (lhs L) m) /\
       recoverTreeFromHashStore H d = Ok (mkLedger (mkTree m (peaks (firstn m (lhs L)))) m m d))).
    { rewrite (hash_store_ok d L m p) by auto.
      destruct (Nat.eqb_spec (length L) m); [|auto].
      destruct (Nat.eqb_spec (length (nodes_upto (lhs L) m)) p); cbn [andb]; auto. }
    destruct HS as [-> | (A1 & A2 & ->)]; [exact FB|].
    eexists _, _. split; [reflexivity|].
    split; [|split; [reflexivity|intros k _; rewrite firstn_nil; exact DI]].
    split; [|cbn; exact EL].
    rewrite A1 in E1, E2, A2. rewrite <- lhs_length in E1, E2, A2.
    rewrite firstn_all in E1. rewrite A2, firstn_all in E2.
    rewrite A1, <- lhs_length, firstn_all.
    repeat split; cbn; auto.
  Qed.

  (** A complete disk is recovered from the hash store, without writing. *)
  Lemma recover_full l L : LInv l L -> 1 <= length L ->
    recoverTree H B deser_log ser_tree (l_disk l) = Ok (l, []).
  Proof.
    intros [(T & E1 & E2 & E3 & E4) G] HL. unfold recoverTree. unfold kv_size. rewrite E3, dlist_length, lhs_length.
    destruct (Nat.eqb_spec (length L) 0); [lia|].
    rewrite (hash_store_ok (l_disk l) L (length L) (length (nodes_upto (lhs L) (length L)))); auto.
    - rewrite !Nat.eqb_refl. cbn [andb]. do 2 f_equal. destruct l as [[a b] c e f], T as [T1 T2]. cbn in *.
      rewrite lhs_length in *. rewrite <- lhs_length at 2. rewrite firstn_all. congruence.
    - rewrite lhs_length. auto.
    - rewrite <- lhs_length, firstn_all. exact E3.
    - rewrite firstn_all. rewrite E4. unfold Merkle_Store.all_nodes. rewrite lhs_length. reflexivity.
    - split; auto. apply nodes_upto_mono.
  Qed.
End Ledger.
