(** Model of state/trie/pruning_trie.py (class Trie) over a content-addressed store
    (state/db/persistent_db.py), and of state/pruning_state.py.

    Trie nodes are RLP items, as in the code: the blank node is the empty string, a leaf or
    extension is a list of two items, a branch a list of 17. The code changes lists in place;
    the model returns the changed copy. No list is shared between two nodes: every node is
    built afresh or decoded from the store. *)
From Coq Require Import List Arith NArith Bool.
From Verif Require Import Base Rlp_Model.
Import ListNotations.
Local Open Scope res_scope.

Definition item_eq_dec : forall a b : item, {a = b} + {a <> b}.
Proof.
  fix IH 1. intros [a|l] [b|m]; try (right; discriminate).
  - destruct (bytes_eq_dec a b) as [->|N]; [left; reflexivity|right; congruence].
  - assert (D : {l = m} + {l <> m}).
    { revert m. induction l as [|x l IHl]; intros [|y m]; try (right; discriminate); [left; reflexivity|].
      destruct (IH x y) as [->|N]; [|right; congruence].
      destruct (IHl m) as [->|N]; [left; reflexivity|right; congruence]. }
    destruct D as [->|N]; [left; reflexivity|right; congruence].
Defined.
Definition item_eqb (a b : item) : bool := if item_eq_dec a b then true else false.

Definition BLANK_NODE : item := Str [].

Definition set_nth {A} (i : nat) (x : A) (l : list A) : list A :=
  if i <? length l then firstn i l ++ x :: skipn (S i) l else l.
Definition get_item (l : list item) (i : nat) : res item :=
  match nth_error l i with Some x => Ok x | None => Err IndexError end.

(** The length of the longest common prefix (pruning_trie.py:512-516) *)
Fixpoint lcp (a b : nibbles) : nat :=
  match a, b with
  | x :: a', y :: b' => if N.eqb x y then S (lcp a' b') else 0
  | _, _ => 0
  end.

(** The key-value storage: all puts, the newest first. *)
Definition kv := list (bytes * bytes).
Fixpoint kv_get (d : kv) (k : bytes) : res bytes :=
  match d with
  | [] => Err KeyError
  | (k', v) :: d' => if bytes_eqb k' k then Ok v else kv_get d' k
  end.

(** Code that puts into the store: the store after it and the result. The store keeps what was
    put before an exception. *)
Definition M A := kv -> kv * res A.
Definition ret {A} (x : A) : M A := fun d => (d, Ok x).
Definition fail {A} (e : exn) : M A := fun d => (d, Err e).
Definition bindM {A B} (m : M A) (f : A -> M B) : M B :=
  fun d => let '(d1, r) := m d in match r with Ok x => f x d1 | Err e => (d1, Err e) end.
Definition lift {A} (r : res A) : M A := fun d => (d, r).
Definition reads {A} (f : kv -> res A) : M A := fun d => (d, f d).
Definition put (k v : bytes) : M unit := fun d => ((k, v) :: d, Ok tt).
Declare Scope m_scope.
Notation "x <~ e ;; f" := (bindM e (fun x => f)) (at level 61, e at next level, right associativity) : m_scope.
Local Open Scope m_scope.

Inductive node_type := NT_BLANK | NT_LEAF | NT_EXTENSION | NT_BRANCH | NT_NONE.

Section Trie.
  Variable H : bytes -> bytes.   (* sha3_256 *)

  (** line 209 *)
  Definition BLANK_ROOT : bytes := H (rlp BLANK_NODE).

  (** lines 334-344 [_encode_node]; [inc_refcount] of PersistentDB is a put *)
  Definition encode_node (node : item) (is_root : bool) : M item :=
    if item_eqb node BLANK_NODE then ret BLANK_NODE
    else
      r <~ lift (rlp_encode node) ;;
      if (length r <? 32) && negb is_root then ret node
      else _ <~ put (H r) r ;; ret (Str (H r)).

  (** lines 346-353 [_decode_to_node]; second component: the nodes given to [spv_grabbing].
      [ok] is the membership test made in verifying mode, and constantly true otherwise.
      rlp.decode of the rlp package is taken to agree with fast_rlp.py on encoded nodes. *)
  Definition decode_to_node (ok : item -> bool) (d : kv) (encoded : item) : res (item * list item) :=
    match encoded with
    | Str [] => Ok (BLANK_NODE, [])
    | Lst _ => Ok (encoded, [])
    | Str h =>
      b <- kv_get d h ;;
      o <- rlp_decode b ;;
      if ok o then Ok (o, [o]) else Err ProofError
    end.
  Definition any_node : item -> bool := fun _ => true.
  Definition load (encoded : item) : M item :=
    reads (fun d => '(n, _) <- decode_to_node any_node d encoded ;; Ok n).

  Definition unpack_item (i : item) : res nibbles :=
    match i with Str s => unpack_to_nibbles s | Lst _ => Err TypeError end.

  (** lines 359-374 [_get_node_type]. A non-empty string is no node; Python goes on until
      indexing it gives integers, and ends with an exception or with a non-string. *)
  Definition get_node_type (node : item) : res node_type :=
    match node with
    | Str [] => Ok NT_BLANK
    | Str _ => Err TypeError
    | Lst [k; _] =>
      n <- unpack_item k ;; Ok (if has_terminator n then NT_LEAF else NT_EXTENSION)
    | Lst l => Ok (if length l =? 17 then NT_BRANCH else NT_NONE)
    end.

  Definition items_of (node : item) : list item := match node with Lst l => l | Str _ => [] end.

  (** lines 203-204 [key_nibbles_from_key_value_node] *)
  Definition key_nibbles (node : item) : res nibbles :=
    k <- get_item (items_of node) 0 ;; n <- unpack_item k ;; Ok (without_terminator n).

  (** lines 376-407 [_get]; the fuel is Python's recursion limit. Result: the value ([None] is
      Python's None) and the nodes grabbed on the way. *)
  Fixpoint get_f (ok : item -> bool) (fuel : nat) (d : kv) (node : item) (key : nibbles)
    : res (option item * list item) :=
    match fuel with
    | 0 => Err OutOfFuel
    | S fuel' =>
      nt <- get_node_type node ;;
      match nt with
      | NT_BLANK => Ok (Some BLANK_NODE, [])
      | NT_BRANCH =>
        match key with
        | [] => v <- get_item (items_of node) 16 ;; Ok (Some v, [])
        | k0 :: ks =>
          e <- get_item (items_of node) (N.to_nat k0) ;;
          '(sub, g) <- decode_to_node ok d e ;;
          '(v, g') <- get_f ok fuel' d sub ks ;; Ok (v, g ++ g')
        end
      | NT_LEAF =>
        ck <- key_nibbles node ;;
        v <- get_item (items_of node) 1 ;;
        Ok (Some (if bytes_eqb key ck then v else BLANK_NODE), [])
      | NT_EXTENSION =>
        ck <- key_nibbles node ;;
        if starts_with key ck then
          e <- get_item (items_of node) 1 ;;
          '(sub, g) <- decode_to_node ok d e ;;
          '(v, g') <- get_f ok fuel' d sub (skipn (length ck) key) ;; Ok (v, g ++ g')
        else Ok (Some BLANK_NODE, [])
      | NT_NONE => _ <- key_nibbles node ;; Ok (None, [])
      end
    end.

  (** lines 567-582, the end of [_update_kv_node]: [nn] is the new node *)
  Definition finish_kv_node (p : nat) (ck : nibbles) (nn : item) (new_node_encoded : bool) : M item :=
    if 0 <? p then
      pk <~ lift (pack_nibbles (firstn p ck)) ;;
      e <~ encode_node nn false ;;
      let o := Lst [Str pk; e] in
      _ <~ encode_node o false ;; ret o
    else if new_node_encoded then ret nn
    else _ <~ encode_node nn false ;; ret nn.

  (** lines 505-566 [_update_kv_node]; [upd] is [_update_and_delete_storage]. Deletion from
      the store (dec_refcount) does nothing in PersistentDB. *)
  Definition update_kv_node (upd : item -> nibbles -> M item)
      (node : item) (is_inner : bool) (key : nibbles) (value : bytes) : M item :=
    ck <~ lift (key_nibbles node) ;;
    n0 <~ lift (get_item (items_of node) 0) ;;
    n1 <~ lift (get_item (items_of node) 1) ;;
    let p := lcp ck key in
    let remain_key := skipn p key in
    let remain_curr_key := skipn p ck in
    let finish := finish_kv_node p ck in
    match remain_curr_key, remain_key, is_inner with
    | [], [], false =>
      let o := Lst [n0; Str value] in
      _ <~ encode_node o false ;; ret o
    | [], _, true =>
      sub <~ load n1 ;;
      nn <~ upd sub remain_key ;; finish nn true
    | [], r0 :: rs, false =>
      pk <~ lift (pack_nibbles (with_terminator rs)) ;;
      e <~ encode_node (Lst [Str pk; Str value]) false ;;
      finish (Lst (set_nth (N.to_nat r0) e (repeat BLANK_NODE 16) ++ [n1])) false
    | c0 :: cs, _, _ =>
      e1 <~ (if (length remain_curr_key =? 1) && is_inner then ret n1
             else pk <~ lift (pack_nibbles (adapt_terminator cs (negb is_inner))) ;;
                  encode_node (Lst [Str pk; n1]) false) ;;
      let b := set_nth (N.to_nat c0) e1 (repeat BLANK_NODE 17) in
      match remain_key with
      | [] => finish (Lst (set_nth 16 (Str value) b)) false
      | r0 :: rs =>
        pk <~ lift (pack_nibbles (with_terminator rs)) ;;
        e2 <~ encode_node (Lst [Str pk; Str value]) false ;;
        finish (Lst (set_nth (N.to_nat r0) e2 b)) false
      end
    end.

  (** lines 460-494 [_update]; returns None (an error later on) for a node of no type *)
  Fixpoint update_f (fuel : nat) (node : item) (key : nibbles) (value : bytes) : M item :=
    match fuel with
    | 0 => fail OutOfFuel
    | S fuel' =>
      nt <~ lift (get_node_type node) ;;
      match nt with
      | NT_BLANK =>
        pk <~ lift (pack_nibbles (with_terminator key)) ;;
        let o := Lst [Str pk; Str value] in
        _ <~ encode_node o false ;; ret o
      | NT_BRANCH =>
        n' <~ match key with
              | [] => ret (Lst (set_nth 16 (Str value) (items_of node)))
              | k0 :: ks =>
                e <~ lift (get_item (items_of node) (N.to_nat k0)) ;;
                sub <~ load e ;;
                new <~ update_f fuel' sub ks value ;;
                e' <~ encode_node new false ;;
                ret (Lst (set_nth (N.to_nat k0) e' (items_of node)))
              end ;;
        _ <~ encode_node n' false ;; ret n'
      | NT_LEAF => update_kv_node (fun n k => update_f fuel' n k value) node false key value
      | NT_EXTENSION => update_kv_node (fun n k => update_f fuel' n k value) node true key value
      | NT_NONE => fail TypeError
      end
    end.

  (** Truth value of a node item *)
  Definition truthy (i : item) : bool := match i with Str [] | Lst [] => false | _ => true end.
  Fixpoint first_truthy (l : list item) : nat :=
    match l with [] => 0 | x :: l' => if truthy x then 0 else S (first_truthy l') end.

  (** lines 706-744 [_normalize_branch_node] *)
  Definition normalize_branch_node (node : item) : M item :=
    let l := items_of node in
    let count := length (filter truthy l) in
    if count =? 0 then fail AssertionError
    else if 1 <? count then _ <~ encode_node node false ;; ret node
    else
      let i := first_truthy l in
      if i =? 16 then
        pk <~ lift (pack_nibbles (with_terminator [])) ;;
        v <~ lift (get_item l 16) ;;
        let o := Lst [Str pk; v] in _ <~ encode_node o false ;; ret o
      else
        e <~ lift (get_item l i) ;;
        sub <~ load e ;;
        nt <~ lift (get_node_type sub) ;;
        match nt with
        | NT_LEAF | NT_EXTENSION =>
          k <~ lift (get_item (items_of sub) 0) ;; nk <~ lift (unpack_item k) ;;
          v <~ lift (get_item (items_of sub) 1) ;;
          pk <~ lift (pack_nibbles (N.of_nat i :: nk)) ;;
          let o := Lst [Str pk; v] in _ <~ encode_node o false ;; ret o
        | NT_BRANCH =>
          pk <~ lift (pack_nibbles [N.of_nat i]) ;;
          let o := Lst [Str pk; e] in _ <~ encode_node o false ;; ret o
        | _ => fail AssertionError
        end.

  (** lines 755-777 [_delete_branch_node] *)
  Definition delete_branch_node (del : item -> nibbles -> M item) (node : item) (key : nibbles) : M item :=
    match key with
    | [] => normalize_branch_node (Lst (set_nth 16 BLANK_NODE (items_of node)))
    | k0 :: ks =>
      e <~ lift (get_item (items_of node) (N.to_nat k0)) ;;
      sub <~ load e ;;
      o <~ del sub ks ;;
      e' <~ encode_node o false ;;
      let n' := Lst (set_nth (N.to_nat k0) e' (items_of node)) in
      if item_eqb e' BLANK_NODE then normalize_branch_node n'
      else _ <~ encode_node n' false ;; ret n'
    end.

  (** lines 779-832 [_delete_kv_node] *)
  Definition delete_kv_node (del : item -> nibbles -> M item)
      (node : item) (is_leaf : bool) (key : nibbles) : M item :=
    ck <~ lift (key_nibbles node) ;;
    if negb (starts_with key ck) then _ <~ encode_node node false ;; ret node
    else if is_leaf then
      if bytes_eqb key ck then ret BLANK_NODE
      else _ <~ encode_node node false ;; ret node
    else
      e <~ lift (get_item (items_of node) 1) ;;
      sub <~ load e ;;
      new <~ del sub (skipn (length ck) key) ;;
      if item_eqb new BLANK_NODE then ret BLANK_NODE
      else
        nt <~ lift (get_node_type new) ;;
        match nt with
        | NT_LEAF | NT_EXTENSION =>
          k <~ lift (get_item (items_of new) 0) ;; nk <~ lift (unpack_item k) ;;
          v <~ lift (get_item (items_of new) 1) ;;
          pk <~ lift (pack_nibbles (ck ++ nk)) ;;
          let o := Lst [Str pk; v] in _ <~ encode_node o false ;; ret o
        | NT_BRANCH =>
          pk <~ lift (pack_nibbles ck) ;;
          e' <~ encode_node new false ;;
          let o := Lst [Str pk; e'] in _ <~ encode_node o false ;; ret o
        | _ => fail AssertionError
        end.

  (** lines 683-704 [_delete] *)
  Fixpoint delete_f (fuel : nat) (node : item) (key : nibbles) : M item :=
    match fuel with
    | 0 => fail OutOfFuel
    | S fuel' =>
      nt <~ lift (get_node_type node) ;;
      match nt with
      | NT_BLANK => ret BLANK_NODE
      | NT_BRANCH => delete_branch_node (delete_f fuel') node key
      | NT_LEAF => delete_kv_node (delete_f fuel') node true key
      | NT_EXTENSION => delete_kv_node (delete_f fuel') node false key
      | NT_NONE => fail TypeError
      end
    end.

  (** The depth of recursion Python allows *)
  Variable limit : nat.

  (** ** The trie object: the store and the current root node *)
  Record trie := mkTrie { t_kv : kv; t_root : item }.

  (** lines 254-271 *)
  Definition get_root_hash (t : trie) : res bytes :=
    if item_eqb (t_root t) BLANK_NODE then Ok BLANK_ROOT
    else r <- rlp_encode (t_root t) ;; Ok (H r).
  (** A change of the root node: [m] computes it, [replace_root_hash] stores and sets it. After
      an exception the root node is the old one; the code may have changed it in part. *)
  Definition change_root (t : trie) (m : M item) : trie * res unit :=
    let '(d, r) := (n <~ m ;; _ <~ encode_node n true ;; ret n) (t_kv t) in
    match r with
    | Ok n => (mkTrie d n, Ok tt)
    | Err e => (mkTrie d (t_root t), Err e)
    end.

  (** lines 1006-1027 [update] *)
  Definition t_update (t : trie) (key value : bytes) : trie * res unit :=
    change_root t (update_f limit (t_root t) (bin_to_nibbles key) value).
  (** lines 834-848 [delete] *)
  Definition t_delete (t : trie) (key : bytes) : trie * res unit :=
    change_root t (delete_f limit (t_root t) (bin_to_nibbles key)).
  (** [_get] without grabbing *)
  Definition t_get (t : trie) (node : item) (key : bytes) : res (option item) :=
    '(v, _) <- get_f any_node limit (t_kv t) node (bin_to_nibbles key) ;; Ok v.

  (** ** Proofs *)
  (** lines 1043-1050 and 1087-1098: the nodes of a proof, in the order they are met; the code
      collects them in a set, so they come in some order, then the root. *)
  Definition generate_state_proof (t : trie) (root : item) (key : bytes) : res (list item * option item) :=
    '(v, g) <- get_f any_node limit (t_kv t) root (bin_to_nibbles key) ;;
    Ok (g ++ [root], v).

  (** lines 1154-1162 [get_new_trie_with_proof_nodes] *)
  Fixpoint proof_store (nodes : list item) (d : kv) : res kv :=
    match nodes with
    | [] => Ok d
    | n :: ns => r <- rlp_encode n ;; proof_store ns ((H r, r) :: d)
    end.
  (** lines 70-72, 241-243: is the node one of the proof nodes? *)
  Definition in_proof (nodes : list item) (n : item) : bool :=
    match rlp_encode n with
    | Ok r => existsb (fun m => match rlp_encode m with Ok r' => bytes_eqb r' r | Err _ => false end) nodes
    | Err _ => false
    end.

  (** lines 283-297 [set_root_hash] *)
  Definition root_node_of (ok : item -> bool) (d : kv) (root_hash : bytes) : res item :=
    if negb ((length root_hash =? 0) || (length root_hash =? 32)) then Err PlenumValueError
    else if bytes_eqb root_hash BLANK_ROOT then Ok BLANK_NODE
    else '(n, _) <- decode_to_node ok d (Str root_hash) ;; Ok n.

  (** Equality of a value read ([None] or an item) with a byte string *)
  Definition same_value (v : option item) (value : bytes) : bool :=
    match v with Some i => item_eqb i (Str value) | None => false end.

  (** lines 1101-1119 [verify_spv_proof]: an exception raised inside the try block gives False,
      one raised before it propagates (encoding of an over-long node). *)
  Definition verify_spv_proof (root : bytes) (key value : bytes) (nodes : list item) : res bool :=
    d <- proof_store nodes [] ;;
    match (r <- root_node_of (in_proof nodes) d root ;;
           '(v, _) <- get_f (in_proof nodes) limit d r (bin_to_nibbles key) ;; Ok v) with
    | Ok v => Ok (same_value v value)
    | Err _ => Ok false
    end.
  (** lines 1122-1151 [verify_spv_proof_multi] *)
  Fixpoint check_all (nodes : list item) (d : kv) (r : item) (kvs : list (bytes * bytes)) : bool :=
    match kvs with
    | [] => true
    | (k, value) :: kvs' =>
      match get_f (in_proof nodes) limit d r (bin_to_nibbles k) with
      | Ok (v, _) => if same_value v value then check_all nodes d r kvs' else false
      | Err _ => false
      end
    end.
  Definition verify_spv_proof_multi (root : bytes) (kvs : list (bytes * bytes)) (nodes : list item) : res bool :=
    d <- proof_store nodes [] ;;
    match root_node_of (in_proof nodes) d root with
    | Err _ => Ok false
    | Ok r => Ok (check_all nodes d r kvs)
    end.

  (** ** PruningState (state/pruning_state.py) *)
  (** lines 25, 28-40: the database holds the nodes and, under [rootHashKey], the committed root *)
  Definition rootHashKey : bytes := [136; 200; 136; 32; 154; 167; 137; 27]%N.
  Definition open_state (d : kv) : res trie :=
    match kv_get d rootHashKey with
    | Ok h => r <- root_node_of any_node d h ;; Ok (mkTrie d r)
    | Err _ => Ok (mkTrie ((rootHashKey, BLANK_ROOT) :: d) BLANK_NODE)
    end.

  (** lines 57-60 [_hash_to_node] *)
  Definition hash_to_node (t : trie) (h : bytes) : res item :=
    if bytes_eqb h BLANK_ROOT then Ok BLANK_NODE
    else '(n, _) <- decode_to_node any_node (t_kv t) (Str h) ;; Ok n.
  Definition committed_hash (t : trie) : res bytes := kv_get (t_kv t) rootHashKey.

  (** lines 62-63 [set] *)
  Definition s_set (t : trie) (key value : bytes) : trie * res unit :=
    match rlp_encode (Lst [Str value]) with
    | Ok v => t_update t key v
    | Err e => (t, Err e)
    end.
  (** lines 84-85 [remove] *)
  Definition s_remove (t : trie) (key : bytes) : trie * res unit := t_delete t key.

  (** lines 155-156 [get_decoded] *)
  Definition get_decoded (enc : bytes) : res item :=
    i <- rlp_decode enc ;; get_item (items_of i) 0.
  (** the last lines of [get]: nothing for a value that is not there *)
  Definition decode_value (v : option item) : res (option item) :=
    match v with
    | None => Ok None
    | Some i => if truthy i then
                  match i with Str b => x <- get_decoded b ;; Ok (Some x) | Lst _ => Err TypeError end
                else Ok None
    end.
  (** lines 65-77 [get], [get_for_root_hash] *)
  Definition s_get (t : trie) (key : bytes) (isCommitted : bool) : res (option item) :=
    node <- (if isCommitted then h <- committed_hash t ;; hash_to_node t h else Ok (t_root t)) ;;
    v <- t_get t node key ;; decode_value v.
  Definition s_get_for_root_hash (t : trie) (root_hash key : bytes) : res (option item) :=
    node <- hash_to_node t root_hash ;;
    v <- t_get t node key ;; decode_value v.

  (** lines 87-98 [commit]. utils.py [isHex]: all bytes are ASCII hex digits (bytes of 128 and
      more that form valid UTF-8 are no hex digits either); [unhexlify] wants an even number. *)
  Definition hex_digit (b : N) : option N :=
    if (48 <=? b)%N && (b <=? 57)%N then Some (b - 48)%N
    else if (97 <=? b)%N && (b <=? 102)%N then Some (b - 87)%N
    else if (65 <=? b)%N && (b <=? 70)%N then Some (b - 55)%N
    else None.
  Definition isHex (s : bytes) : bool := forallb (fun b => match hex_digit b with Some _ => true | None => false end) s.
  Definition unhexlify (s : bytes) : res bytes :=
    pairs_to_bytes (map (fun b => match hex_digit b with Some x => x | None => 0%N end) s).
  (** [rootHash] is None or a byte string (a str of hex digits is the same as its bytes). *)
  Definition s_commit (t : trie) (rootHash : option bytes) : trie * res unit :=
    match match rootHash with
          | Some (b :: bs) => if isHex (b :: bs) then unhexlify (b :: bs) else Ok (b :: bs)
          | _ => get_root_hash t
          end with
    | Ok h => (mkTrie ((rootHashKey, h) :: t_kv t) (t_root t), Ok tt)
    | Err e => (t, Err e)
    end.

  (** lines 100-102 [revertToHead] *)
  Definition s_revert (t : trie) (headHash : bytes) : trie * res unit :=
    change_root t (lift (hash_to_node t headHash)).

  (** lines 114-128 [verify_state_proof]; [None] for the absence of a value *)
  Definition encode_value (v : option bytes) : res bytes :=
    match v with Some b => rlp_encode (Lst [Str b]) | None => Ok [] end.
  Definition verify_state_proof (root key : bytes) (value : option bytes) (nodes : list item) : res bool :=
    v <- encode_value value ;; verify_spv_proof root key v nodes.
  Definition verify_state_proof_multi (root : bytes) (kvs : list (bytes * option bytes)) (nodes : list item) : res bool :=
    l <- mapM (fun '(k, v) => e <- encode_value v ;; Ok (k, e)) kvs ;;
    verify_spv_proof_multi root l nodes.
  (** lines 1100, 1164-1170: proofs on the wire *)
  Definition serialize_proof (nodes : list item) : res bytes := rlp_encode (Lst nodes).
  Definition deserialize_proof (b : bytes) : res item := rlp_decode b.
End Trie.
