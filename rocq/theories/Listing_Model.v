(** Model of the listing of the state: state/trie/pruning_trie.py:409-458, 892-943, 1052-1098, 1173-1178
    and state/pruning_state.py:79-82, 107-110, 134-136, over the trie of Trie_Model.v. *)
From Coq Require Import List Arith NArith Bool.
From Verif Require Import Base Rlp_Model Trie_Model.
Import ListNotations.
Local Open Scope res_scope.

Section Listing.
  Variable H : bytes -> bytes.   (* sha3_256 *)
  Variable limit : nat.          (* the depth of recursion Python allows *)

  (** Keys of the dict that [_to_dict] makes are the nibbles in decimal, joined by +, and the
      terminator 16 at the end; here the list of the nibbles without the terminator.  A dict is the
      list of its items; that no key comes twice (the later value would win) is proved. *)
  Notation dict := (list (nibbles * item)).
  Definition under (p : nibbles) (l : dict) : dict := map (fun x => (p ++ fst x, snd x)) l.

  (** 921-928: the loop over the 16 children *)
  Fixpoint each (f : item -> res (dict * list item)) (i : N) (cs : list item) : res (dict * list item) :=
    match cs with
    | [] => Ok ([], [])
    | e :: cs' =>
      '(l, g) <- f e ;;
      '(l', g') <- each f (i + 1) cs' ;;
      Ok (under [i] l ++ l', g ++ g')
    end.
  (** 892-934 [_to_dict]; second component: the nodes given to [spv_grabbing].  For a node of no
      type it gives None, and the caller fails. *)
  Fixpoint to_dict_f (fuel : nat) (d : kv) (node : item) : res (dict * list item) :=
    match fuel with
    | 0 => Err OutOfFuel
    | S fuel' =>
      let child e := '(sub, g) <- decode_to_node any_node d e ;; '(l, g') <- to_dict_f fuel' d sub ;; Ok (l, g ++ g') in
      if item_eqb node BLANK_NODE then Ok ([], [])
      else
        nt <- get_node_type node ;;
        match nt with
        | NT_LEAF =>
          ck <- key_nibbles node ;; v <- get_item (items_of node) 1 ;; Ok ([(ck, v)], [])
        | NT_EXTENSION =>
          ck <- key_nibbles node ;; e <- get_item (items_of node) 1 ;;
          '(l, g) <- child e ;; Ok (under ck l, g)
        | NT_BRANCH =>
          '(l, g) <- each child 0 (firstn 16 (items_of node)) ;;
          v <- get_item (items_of node) 16 ;;
          Ok (l ++ (if truthy v then [([], v)] else []), g)
        | NT_BLANK | NT_NONE => Err TypeError
        end
    end.

  (** 130-136 [without_terminator_and_flags], 36-46 [nibbles_to_bin], 1173-1178 [nibble_key_str_to_bin] *)
  Definition key_to_bin (k : nibbles) : res bytes :=
    nibbles_to_bin (if Nat.odd (length k) then tl k else k).
  Definition to_bin (l : dict) : res (list (bytes * item)) :=
    mapM (fun x => k <- key_to_bin (fst x) ;; Ok (k, snd x)) l.
  (** 936-943 [to_dict]: [node or self.root_node] *)
  Definition to_dict (t : trie) (node : item) : res (list (bytes * item)) :=
    let node := if truthy node then node else t_root t in
    '(l, _) <- to_dict_f limit (t_kv t) node ;; to_bin l.

  (** 409-458 [_get_last_node_for_prfx]: the node, the prefix seen, the nodes grabbed *)
  Fixpoint last_node_f (fuel : nat) (d : kv) (node : item) (prfx : nibbles) : res (item * nibbles * list item) :=
    match fuel with
    | 0 => Err OutOfFuel
    | S fuel' =>
      nt <- get_node_type node ;;
      match nt with
      | NT_BLANK => Ok (BLANK_NODE, [], [])
      | NT_BRANCH =>
        match prfx with
        | [] => Ok (node, [], [])
        | k0 :: ks =>
          e <- get_item (items_of node) (N.to_nat k0) ;;
          '(sub, g) <- decode_to_node any_node d e ;;
          '(n, seen, g') <- last_node_f fuel' d sub ks ;; Ok (n, k0 :: seen, g ++ g')
        end
      | NT_LEAF =>
        ck <- key_nibbles node ;;
        Ok (if starts_with ck prfx then node else BLANK_NODE, [], [])
      | NT_EXTENSION =>
        ck <- key_nibbles node ;;
        if length ck <? length prfx then
          if starts_with prfx ck then
            e <- get_item (items_of node) 1 ;;
            '(sub, g) <- decode_to_node any_node d e ;;
            '(n, seen, g') <- last_node_f fuel' d sub (skipn (length ck) prfx) ;; Ok (n, ck ++ seen, g ++ g')
          else Ok (BLANK_NODE, [], [])
        else Ok (if starts_with ck prfx then node else BLANK_NODE, [], [])
      | NT_NONE => Err TypeError
      end
    end.

  (** 1052-1073 [produce_spv_proof_for_keys_with_prefix] with values, 1087-1098 [_generate_state_proof] *)
  Definition prefix_proof (t : trie) (root : item) (prfx : bytes) : res (list item * list (bytes * item)) :=
    '(n, seen, g) <- last_node_f limit (t_kv t) root (bin_to_nibbles prfx) ;;
    '(l, g') <- to_dict_f limit (t_kv t) n ;;
    kvs <- to_bin (under seen l) ;;
    Ok ((g ++ g') ++ [root], kvs).

  (** pruning_state.py:134-136 [as_dict] *)
  Definition s_as_dict (t : trie) : res (list (bytes * item)) :=
    l <- to_dict t (t_root t) ;;
    mapM (fun x => v <- match snd x with Str b => get_decoded b | Lst _ => Err TypeError end ;; Ok (fst x, v)) l.
  (** 79-82 [get_all_leaves_for_root_hash]: the values are not decoded *)
  Definition s_all_leaves (t : trie) (root_hash : bytes) : res (list (bytes * item)) :=
    node <- hash_to_node H t root_hash ;; to_dict t node.
End Listing.
