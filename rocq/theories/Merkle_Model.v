(** Model of ledger/tree_hasher.py, ledger/compact_merkle_tree.py,
    ledger/hash_stores/hash_store.py, plenum/persistence/db_hash_store.py and
    ledger/merkle_verifier.py. *)
From Coq Require Import List Arith NArith Lia Bool.
From Verif Require Import Base Bits_Model.
Import ListNotations.
Local Open Scope res_scope.

Section Merkle.
  (** Digest function of the TreeHasher (hashlib.sha256). *)
  Variable H : bytes -> bytes.

  (** ** ledger/tree_hasher.py *)

  (** tree_hasher.py:16-18 *)
  Definition hash_empty : bytes := H [].
  (** tree_hasher.py:20-23 *)
  Definition hash_leaf (data : bytes) : bytes := H (0%N :: data).
  (** tree_hasher.py:25-28 *)
  Definition hash_children (l r : bytes) : bytes := H (1%N :: l ++ r).

  (** tree_hasher.py:30-62 [_hash_full]. Recursion is on the width, used as fuel. *)
  Fixpoint hash_full (fuel : nat) (leaves : list bytes) (l_idx r_idx : nat)
    : res (bytes * list bytes) :=
    match fuel with
    | 0 => Err OutOfFuel
    | S f =>
      if (r_idx <? l_idx) || (length leaves <? r_idx) then Err IndexError else
      let width := r_idx - l_idx in
      if width =? 0 then Ok (hash_empty, [])
      else if width =? 1 then
        match nth_error leaves l_idx with
        | Some d => Ok (hash_leaf d, [hash_leaf d])
        | None => Err IndexError
        end
      else
        let split_width := 2 ^ (bit_length (width - 1) - 1) in
        if negb ((split_width <? width) && (width <=? 2 * split_width))
        then Err AssertionError else
        '(l_root, l_hashes) <- hash_full f leaves l_idx (l_idx + split_width) ;;
        if negb (length l_hashes =? 1) then Err AssertionError else
        '(r_root, r_hashes) <- hash_full f leaves (l_idx + split_width) r_idx ;;
        let root_hash := hash_children l_root r_root in
        Ok (root_hash, if split_width * 2 =? width then [root_hash] else l_hashes ++ r_hashes)
    end.

  (** tree_hasher.py:64-69 [_hash_fold]: fold from the right end of the list;
      [next] on an empty iterator raises StopIteration. *)
  Definition hash_fold (hashes : list bytes) : res bytes :=
    match rev hashes with
    | [] => Err StopIteration
    | a :: rest => Ok (fold_left (fun accum cur => hash_children cur accum) rest a)
    end.

  (** ** ledger/compact_merkle_tree.py: the in-memory part *)

  (** Attributes __tree_size and __hashes (compact_merkle_tree.py:41-42).
      __mintree_height is always [lowest_bit_set __tree_size] (line 44), so it is
      recomputed; the __root_hash memo (line 45) is not modelled. *)
  Record tree := mkTree { tree_size : nat; hashes : list bytes }.

  Definition mintree_height (t : tree) : nat := lowest_bit_set (tree_size t).

  (** compact_merkle_tree.py:35-45 [_update] *)
  Definition update (size : nat) (hs : list bytes) : res tree :=
    if negb (length hs =? count_bits_set size) then Err ValueError
    else Ok (mkTree size hs).

  (** CompactMerkleTree() with default arguments (compact_merkle_tree.py:22-29) *)
  Definition empty_tree : tree := mkTree 0 [].

  (** compact_merkle_tree.py:81-88 [root_hash] *)
  Definition root_hash (t : tree) : res bytes :=
    match hashes t with
    | [] => Ok hash_empty
    | _ => hash_fold (hashes t)
    end.

  (** compact_merkle_tree.py:138-153 [__push_subtree_hash]; returns the new tree and
      the list of (hash, height) pairs. Each recursive call removes one hash. *)
  Fixpoint push_subtree_hash (fuel : nat) (t : tree) (subtree_h : nat) (sub_hash : bytes)
    : res (tree * list (bytes * nat)) :=
    match fuel with
    | 0 => Err OutOfFuel
    | S f =>
      let size := 2 ^ (subtree_h - 1) in
      let mintree_h := mintree_height t in
      if (subtree_h <? mintree_h) || (mintree_h =? 0) then
        t' <- update (tree_size t + size) (hashes t ++ [sub_hash]) ;;
        Ok (t', [])
      else if negb (subtree_h =? mintree_h) then Err AssertionError
      else
        match rev (hashes t) with
        | [] => Err IndexError
        | prev_hash :: _ =>
          t1 <- update (tree_size t - size) (removelast (hashes t)) ;;
          let new_mintree_h := mintree_height t1 in
          if negb ((mintree_h <? new_mintree_h) || (new_mintree_h =? 0))
          then Err AssertionError else
          let next_hash := hash_children prev_hash sub_hash in
          '(t2, rest) <- push_subtree_hash f t1 (subtree_h + 1) next_hash ;;
          Ok (t2, (next_hash, subtree_h) :: rest)
        end
    end.

  (** compact_merkle_tree.py:95-136 [_push_subtree]. Returns the new tree, the leaf
      hashes passed to hashStore.writeLeaf (lines 127-129) and the nodes
      (start, height, hash) passed to hashStore.writeNode (lines 133-136), in order. *)
  Definition push_subtree (t : tree) (leaves : list bytes)
    : res (tree * list bytes * list (nat * nat * bytes)) :=
    let size := length leaves in
    if negb (count_bits_set size =? 1) then Err ValueError else
    let subtree_h := lowest_bit_set size in
    let mintree_h := mintree_height t in
    if (0 <? mintree_h) && (mintree_h <? subtree_h) then Err ValueError else
    '(root, hs) <- hash_full (S size) leaves 0 size ;;
    '(t', new_node_hashes) <- push_subtree_hash (S (length (hashes t))) t subtree_h root ;;
    Ok (t', hs, map (fun '(h, height) => (tree_size t', height, h)) new_node_hashes).

  (** compact_merkle_tree.py:155-160 [append]: the audit path is taken before the push. *)
  Definition append (t : tree) (new_leaf : bytes)
    : res (list bytes * (tree * list bytes * list (nat * nat * bytes))) :=
    let audit_path := rev (hashes t) in
    r <- push_subtree t [new_leaf] ;;
    Ok (audit_path, r).

  (** compact_merkle_tree.py:162-185 [extend]; the store writes of [_push_subtree] are
      dropped here (only the in-memory tree is modelled). [size - idx] is the fuel. *)
  Fixpoint extend_loop (fuel : nat) (t : tree) (new_leaves : list bytes) (idx : nat)
    : res (tree * nat) :=
    match fuel with
    | 0 => Err OutOfFuel
    | S f =>
      let max_h := mintree_height t in
      let max_size := if 0 <? max_h then 2 ^ (max_h - 1) else 0 in
      if (0 <? max_h) && (max_size <=? length new_leaves - idx) then
        '(t', _, _) <- push_subtree t (slice new_leaves idx (idx + max_size)) ;;
        extend_loop f t' new_leaves (idx + max_size)
      else Ok (t, idx)
    end.
  Definition extend (t : tree) (new_leaves : list bytes) : res tree :=
    let size := length new_leaves in
    let final_size := tree_size t + size in
    '(t1, idx) <- extend_loop (S size) t new_leaves 0 ;;
    t2 <- (if idx <? size then
             '(_, hs) <- hash_full (S size) new_leaves idx size ;;
             update final_size (hashes t1 ++ hs)
           else Ok t1) ;;
    if tree_size t2 =? final_size then Ok t2 else Err AssertionError.

  (** ** Key-value storage with integer keys (keys are [str(n)] in the code).
      [put] overwrites an existing key and adds a new one otherwise; [size] is the
      number of keys. *)
  Definition kv := list (nat * bytes).
  Fixpoint kv_get (k : nat) (m : kv) : option bytes :=
    match m with
    | [] => None
    | (k', v) :: m' => if k =? k' then Some v else kv_get k m'
    end.
  Fixpoint kv_put (k : nat) (v : bytes) (m : kv) : kv :=
    match m with
    | [] => [(k, v)]
    | (k', v') :: m' => if k =? k' then (k, v) :: m' else (k', v') :: kv_put k v m'
    end.
  Definition kv_size (m : kv) : nat := length m.

  (** ** plenum/persistence/db_hash_store.py *)
  Record store := mkStore { s_leaves : kv; s_nodes : kv; s_leafCount : nat }.
  Definition empty_store : store := mkStore [] [] 0.

  (** db_hash_store.py:94-101 [open]: the counter is re-read from the database. *)
  Definition open_store (leaves nodes : kv) : store := mkStore leaves nodes (kv_size leaves).

  (** ledger/hash_stores/hash_store.py:87-104 [getNodePosition] with an explicit height.
      [start - 1 + (height - pwr)] is written so that no intermediate value is negative
      ([2^pwr - 1 >= pwr]). *)
  Fixpoint getNodePosition_f (fuel start height : nat) : res nat :=
    match fuel with
    | 0 => Err OutOfFuel
    | S f =>
      let pwr := highest_bit_set start - 1 in
      let height := if height =? 0 then pwr else height in
      if count_bits_set start =? 1 then Ok (start - 1 + height - pwr)
      else
        let c := 2 ^ pwr in
        a <- getNodePosition_f f c pwr ;;
        b <- getNodePosition_f f (start - c) height ;;
        Ok (a + b)
    end.
  Definition getNodePosition (start height : nat) : res nat :=
    getNodePosition_f (S start) start height.

  (** hash_store.py:106-127 [getPath]. [pwr] may be -1 in the code, which takes the same
      branch as 0. *)
  Fixpoint getPath_f (fuel seqNo offset : nat) : res (list nat * list nat) :=
    match fuel with
    | 0 => Err OutOfFuel
    | S f =>
      if seqNo <=? offset then Err ValueError else
      let pwr := highest_bit_set (seqNo - 1 - offset) - 1 in
      if pwr =? 0 then
        if Nat.even seqNo then Ok ([seqNo - 1], []) else Ok ([], [])
      else
        let c := 2 ^ pwr + offset in
        '(leafs, nodes) <- getPath_f f seqNo c ;;
        p <- getNodePosition c pwr ;;
        Ok (leafs, nodes ++ [p])
    end.
  Definition getPath (seqNo offset : nat) : res (list nat * list nat) :=
    getPath_f (S seqNo) seqNo offset.

  (** db_hash_store.py:38-40 [writeLeaf] *)
  Definition writeLeaf (s : store) (h : bytes) : store :=
    mkStore (kv_put (s_leafCount s + 1) h (s_leaves s)) (s_nodes s) (s_leafCount s + 1).
  (** db_hash_store.py:42-45 [writeNode] *)
  Definition writeNode (s : store) (node : nat * nat * bytes) : res store :=
    let '(start, height, h) := node in
    p <- getNodePosition start height ;;
    Ok (mkStore (s_leaves s) (kv_put p h (s_nodes s)) (s_leafCount s)).
  Fixpoint writeNodes (s : store) (nodes : list (nat * nat * bytes)) : res store :=
    match nodes with
    | [] => Ok s
    | n :: ns => s' <- writeNode s n ;; writeNodes s' ns
    end.
  Definition writeLeaves (s : store) (hs : list bytes) : store := fold_left writeLeaf hs s.

  (** db_hash_store.py:47-59 [readLeaf], [readNode]. A position below 1 raises
      IndexError. A missing position makes the code return [None], which then breaks
      the next hash computation with TypeError ([b"\x01" + None]); a missing leaf that
      is not hashed further (compact_merkle_tree.py:202) would be returned as [None]:
      both are [Err TypeError] here. *)
  Definition readOne (m : kv) (pos : nat) : res bytes :=
    if pos <? 1 then Err IndexError else
    match kv_get pos m with Some v => Ok v | None => Err TypeError end.

  (** compact_merkle_tree.py:197-211 [merkle_tree_hash], without the lru_cache
      (see [Merkle_Props.C02_merkle_tree_hash_stable] for its transparency). *)
  Definition merkle_tree_hash (s : store) (start end_ : nat) : res bytes :=
    if negb (start <? end_) then Err ValueError
    else if end_ - start =? 1 then readOne (s_leaves s) end_
    else
      '(leafs, nodes) <- getPath end_ start ;;
      leafHash <- readOne (s_leaves s) end_ ;;
      ls <- mapM (readOne (s_leaves s)) leafs ;;
      ns <- mapM (readOne (s_nodes s)) nodes ;;
      hash_fold (rev (leafHash :: ls ++ ns)).

  (** [1 << (len(bin(n - 1)) - 3)] at compact_merkle_tree.py:229 and 243, for [n >= 2] *)
  Definition split_k (n : nat) : nat := 2 ^ (len_bin (n - 1) - 3).

  (** compact_merkle_tree.py:237-249 [_path]; for [n = 0] the code recurses forever. *)
  Fixpoint path_f (fuel m start_n end_n : nat) : res (list (nat * nat)) :=
    match fuel with
    | 0 => Err OutOfFuel
    | S f =>
      let n := end_n - start_n in
      if n =? 1 then Ok []
      else
        let k := split_k n in
        if m <? k then
          r <- path_f f m start_n (start_n + k) ;; Ok (r ++ [(start_n + k, end_n)])
        else
          r <- path_f f (m - k) (start_n + k) end_n ;; Ok (r ++ [(start_n, start_n + k)])
    end.

  (** compact_merkle_tree.py:221-235 [_subproof] *)
  Fixpoint subproof_f (fuel m start_n end_n : nat) (b : bool) : res (list (nat * nat)) :=
    match fuel with
    | 0 => Err OutOfFuel
    | S f =>
      let n := end_n - start_n in
      if m =? n then Ok (if b then [] else [(start_n, end_n)])
      else
        let k := split_k n in
        if m <=? k then
          r <- subproof_f f m start_n (start_n + k) b ;; Ok (r ++ [(start_n + k, end_n)])
        else
          r <- subproof_f f (m - k) (start_n + k) end_n false ;; Ok (r ++ [(start_n, start_n + k)])
    end.

  (** compact_merkle_tree.py:217-219 [inclusion_proof] *)
  Definition inclusion_proof (s : store) (start end_ : nat) : res (list bytes) :=
    ps <- path_f (S end_) start 0 end_ ;;
    mapM (fun '(a, b) => merkle_tree_hash s a b) ps.

  (** compact_merkle_tree.py:213-215 [consistency_proof] *)
  Definition consistency_proof (s : store) (first second : nat) : res (list bytes) :=
    ps <- subproof_f (S second) first 0 second true ;;
    mapM (fun '(a, b) => merkle_tree_hash s a b) ps.

  (** compact_merkle_tree.py:269-278 [get_expected_node_count] *)
  Fixpoint expected_loop (fuel leaf_count count : nat) : nat :=
    match fuel with
    | 0 => count
    | S f => if 1 <? leaf_count
             then expected_loop f (Nat.div2 leaf_count) (count + Nat.div2 leaf_count)
             else count
    end.
  Definition get_expected_node_count (leaf_count : nat) : nat :=
    expected_loop leaf_count leaf_count 0.

  (** compact_merkle_tree.py:251-259 [get_tree_head]: size and root of the first [seq]
      leaves; [None] (no root) for [seq = 0]. *)
  Definition get_tree_head (t : tree) (s : store) (seq : nat) : res (nat * option bytes) :=
    if tree_size t <? seq then Err IndexError
    else if seq =? 0 then Ok (0, None)
    else r <- merkle_tree_hash s 0 seq ;; Ok (seq, Some r).

  (** compact_merkle_tree.py:280-289 [verify_consistency] *)
  Definition verify_consistency (s : store) (expected_leaf_count : nat) : res unit :=
    if negb (expected_leaf_count =? s_leafCount s) then Err ConsistencyVerificationFailed
    else if negb (get_expected_node_count (s_leafCount s) =? kv_size (s_nodes s))
    then Err ConsistencyVerificationFailed
    else Ok tt.

  (** A tree together with its hash store: [append] writes the leaf hash, then the
      nodes (compact_merkle_tree.py:125-136, 155-160). *)
  Definition mt_append (ts : tree * store) (leaf : bytes) : res (list bytes * (tree * store)) :=
    '(path, (t', hs, nodes)) <- append (fst ts) leaf ;;
    s' <- writeNodes (writeLeaves (snd ts) hs) nodes ;;
    Ok (path, (t', s')).

  Fixpoint mt_appends (ts : tree * store) (leaves : list bytes) : res (tree * store) :=
    match leaves with
    | [] => Ok ts
    | x :: xs => '(_, ts') <- mt_append ts x ;; mt_appends ts' xs
    end.

  (** Any mix of [append] and [extend] calls on the in-memory tree. *)
  Inductive tree_op := OpAppend (leaf : bytes) | OpExtend (leaves : list bytes).
  Definition tree_step (t : tree) (o : tree_op) : res tree :=
    match o with
    | OpAppend leaf => '(_, (t', _, _)) <- append t leaf ;; Ok t'
    | OpExtend leaves => extend t leaves
    end.
  Fixpoint tree_run (t : tree) (os : list tree_op) : res tree :=
    match os with
    | [] => Ok t
    | o :: os' => t' <- tree_step t o ;; tree_run t' os'
    end.

  (** ** ledger/merkle_verifier.py *)

  (** merkle_verifier.py:155-181 [_calculate_root_hash_from_audit_path]; [last_node] halves
      at each turn, so [S last_node] is enough fuel. *)
  Fixpoint calc_root (fuel node_index last_node : nat) (audit_path : list bytes) (acc : bytes)
    : res bytes :=
    match fuel with
    | 0 => Err OutOfFuel
    | S f =>
      if 0 <? last_node then
        match audit_path with
        | [] => Err ProofError
        | a :: rest =>
          if Nat.odd node_index then
            calc_root f (Nat.div2 node_index) (Nat.div2 last_node) rest (hash_children a acc)
          else if node_index <? last_node then
            calc_root f (Nat.div2 node_index) (Nat.div2 last_node) rest (hash_children acc a)
          else
            calc_root f (Nat.div2 node_index) (Nat.div2 last_node) audit_path acc
        end
      else match audit_path with [] => Ok acc | _ => Err ProofError end
    end.

  (** merkle_verifier.py:195-238 [verify_leaf_hash_inclusion]. Negative numbers are
      outside [nat]; they raise ValueError in the code. [Ok tt] is acceptance. *)
  Definition verify_leaf_hash_inclusion (leaf_hash : bytes) (leaf_index : nat)
      (proof : list bytes) (tree_size : nat) (sha256_root_hash : bytes) : res unit :=
    if tree_size <=? leaf_index then Err ValueError else
    r <- calc_root (S (tree_size - 1)) leaf_index (tree_size - 1) proof leaf_hash ;;
    if bytes_eqb r sha256_root_hash then Ok tt else Err ProofError.

  (** merkle_verifier.py:240-266 [verify_leaf_inclusion] *)
  Definition verify_leaf_inclusion (leaf : bytes) (leaf_index : nat)
      (proof : list bytes) (tree_size : nat) (sha256_root_hash : bytes) : res unit :=
    verify_leaf_hash_inclusion (hash_leaf leaf) leaf_index proof tree_size sha256_root_hash.

  (** merkle_verifier.py:183-193 [audit_path_length] *)
  Fixpoint audit_path_length_f (fuel index last_node : nat) : nat :=
    match fuel with
    | 0 => 0
    | S f =>
      if 0 <? last_node then
        (if Nat.odd index || (index <? last_node) then 1 else 0)
        + audit_path_length_f f (Nat.div2 index) (Nat.div2 last_node)
      else 0
    end.
  Definition audit_path_length (index tree_size : nat) : nat :=
    audit_path_length_f (S (tree_size - 1)) index (tree_size - 1).

  (** merkle_verifier.py:87-89: [while node % 2: node //= 2; last_node //= 2] *)
  Fixpoint strip_right (fuel node last_node : nat) : res (nat * nat) :=
    match fuel with
    | 0 => Err OutOfFuel
    | S f => if Nat.odd node then strip_right f (Nat.div2 node) (Nat.div2 last_node)
             else Ok (node, last_node)
    end.

  (** merkle_verifier.py:101-114, the loop [while node]; an exhausted iterator is the
      StopIteration turned into ProofError at line 142-143. *)
  Fixpoint cons_loop1 (fuel node last_node : nat) (p : list bytes) (old_hash new_hash : bytes)
    : res (nat * list bytes * bytes * bytes) :=
    match fuel with
    | 0 => Err OutOfFuel
    | S f =>
      if node =? 0 then Ok (last_node, p, old_hash, new_hash)
      else if Nat.odd node then
        match p with
        | [] => Err ProofError
        | x :: p' => cons_loop1 f (Nat.div2 node) (Nat.div2 last_node) p'
                       (hash_children x old_hash) (hash_children x new_hash)
        end
      else if node <? last_node then
        match p with
        | [] => Err ProofError
        | x :: p' => cons_loop1 f (Nat.div2 node) (Nat.div2 last_node) p'
                       old_hash (hash_children new_hash x)
        end
      else cons_loop1 f (Nat.div2 node) (Nat.div2 last_node) p old_hash new_hash
    end.

  (** merkle_verifier.py:118-121, the loop [while last_node] *)
  Fixpoint cons_loop2 (fuel last_node : nat) (p : list bytes) (new_hash : bytes)
    : res (list bytes * bytes) :=
    match fuel with
    | 0 => Err OutOfFuel
    | S f =>
      if last_node =? 0 then Ok (p, new_hash)
      else match p with
           | [] => Err ProofError
           | x :: p' => cons_loop2 f (Nat.div2 last_node) p' (hash_children new_hash x)
           end
    end.

  (** merkle_verifier.py:22-153 [verify_tree_consistency]; left-over proof nodes are
      ignored as in lines 145-152. *)
  Definition verify_tree_consistency (old_size new_size : nat) (old_root new_root : bytes)
      (proof : list bytes) : res unit :=
    if new_size <? old_size then Err ValueError
    else if old_size =? new_size then
      if bytes_eqb old_root new_root then Ok tt else Err ConsistencyError
    else if old_size =? 0 then Ok tt
    else
      '(node, last_node) <- strip_right (S (old_size - 1)) (old_size - 1) (new_size - 1) ;;
      '(start, p) <- (if node =? 0 then Ok (old_root, proof)
                      else match proof with [] => Err ProofError | x :: p => Ok (x, p) end) ;;
      '(last1, p1, old_hash, new_hash) <- cons_loop1 (S node) node last_node p start start ;;
      '(_, new_hash) <- cons_loop2 (S last1) last1 p1 new_hash ;;
      if negb (bytes_eqb new_hash new_root) then Err ProofError
      else if negb (bytes_eqb old_hash old_root) then Err ConsistencyError
      else Ok tt.

End Merkle.
