(** Model of ledger/ledger.py (the persistent ledger: transaction log, Merkle tree and
    hash store) and plenum/common/ledger.py (uncommitted transactions), with every write
    to disk made explicit so that a crash can be placed between any two of them. *)
From Coq Require Import List Arith NArith Lia Bool.
From Verif Require Import Base Bits_Model Merkle_Model.
Import ListNotations.
Local Open Scope res_scope.

(** ** What is on disk *)
(** The three databases of a ledger: the transaction log (ledger.py:225-231) and the two
    of DbHashStore (db_hash_store.py:94-100). *)
Record disk := mkDisk { d_log : kv; d_leaves : kv; d_nodes : kv }.
Definition empty_disk : disk := mkDisk [] [] [].

(** One write to one database. [put] of one key is atomic; [reset] of one database
    (kv_store_rocksdb.py, [drop] then [open]) is taken as atomic too. *)
Inductive write :=
| WLog (k : nat) (v : bytes)
| WLeaf (k : nat) (v : bytes)
| WNode (k : nat) (v : bytes)
| WResetNodes
| WResetLeaves.

Definition apply_write (d : disk) (w : write) : disk :=
  match w with
  | WLog k v => mkDisk (kv_put k v (d_log d)) (d_leaves d) (d_nodes d)
  | WLeaf k v => mkDisk (d_log d) (kv_put k v (d_leaves d)) (d_nodes d)
  | WNode k v => mkDisk (d_log d) (d_leaves d) (kv_put k v (d_nodes d))
  | WResetNodes => mkDisk (d_log d) (d_leaves d) []
  | WResetLeaves => mkDisk (d_log d) [] (d_nodes d)
  end.
Definition apply_writes (d : disk) (ws : list write) : disk := fold_left apply_write ws d.

(** Iteration over a database with integer keys is in key order
    (storage/kv_store_rocksdb_int_keys.py:10-15, IntegerComparator). *)
Fixpoint kv_insert (e : nat * bytes) (m : kv) : kv :=
  match m with
  | [] => [e]
  | e' :: m' => if fst e <=? fst e' then e :: m else e' :: kv_insert e m'
  end.
Definition kv_iter (m : kv) : kv := fold_right kv_insert [] m.

Section Ledger.
  Variable H : bytes -> bytes.                    (* digest *)
  Variable B : Type.                              (* transaction body *)

  (** A transaction: its body and its txnMetadata.seqNo (txn_util.py:get_seq_no). *)
  Record txn := mkTxn { t_body : B; t_seq : option nat }.

  (** ledger.py:179-183; hashToStr (base58) of returned hashes is not modelled. *)
  Variable ser_log : txn -> bytes.
  Variable deser_log : bytes -> txn.
  Variable ser_tree : txn -> bytes.

  (** A running ledger. [l_leafCount] is DbHashStore._leafCount. *)
  Record ledger := mkLedger
    { l_tree : tree; l_leafCount : nat; l_seqNo : nat; l_disk : disk }.

  Definition l_store (l : ledger) : store :=
    mkStore (d_leaves (l_disk l)) (d_nodes (l_disk l)) (l_leafCount l).

  (** db_hash_store.py:38-45 as writes to disk *)
  Fixpoint leaf_writes (leafCount : nat) (hs : list bytes) : list write :=
    match hs with
    | [] => []
    | h :: hs' => WLeaf (leafCount + 1) h :: leaf_writes (leafCount + 1) hs'
    end.
  Definition node_write (n : nat * nat * bytes) : res write :=
    let '(start, height, h) := n in p <- getNodePosition start height ;; Ok (WNode p h).

  (** merkle info: sequence number, root hash, audit path (ledger.py:149-154) *)
  Definition merkle_info : Type := nat * bytes * list bytes.

  (** ledger.py:144-147 [_addToTreeSerialized]: the result, the new ledger and the writes
      made, in order: leaf hashes, then nodes (compact_merkle_tree.py:127-136). *)
  Definition addToTree (l : ledger) (data : bytes) : res (merkle_info * ledger * list write) :=
    '(path, (t', hs, nodes)) <- append H (l_tree l) data ;;
    nws <- mapM node_write nodes ;;
    let ws := leaf_writes (l_leafCount l) hs ++ nws in
    root <- root_hash H t' ;;
    Ok ((l_seqNo l + 1, root, path),
        mkLedger t' (l_leafCount l + length hs) (l_seqNo l + 1) (apply_writes (l_disk l) ws),
        ws).

  (** ledger.py:115-142 [add], [_addToStore]: the log is written first. *)
  Definition base_add (l : ledger) (x : txn) : res (merkle_info * ledger * list write) :=
    let w := WLog (l_seqNo l + 1) (ser_log x) in
    let l1 := mkLedger (l_tree l) (l_leafCount l) (l_seqNo l) (apply_write (l_disk l) w) in
    '(mi, l2, ws) <- addToTree l1 (ser_tree x) ;;
    Ok (mi, l2, w :: ws).

  (** ledger.py:99-105, the loop of [recoverTreeFromTxnLog] (the two serializers are
      different objects, so entries are deserialized and serialized again). *)
  Fixpoint readd (l : ledger) (entries : list (nat * bytes)) : res (ledger * list write) :=
    match entries with
    | [] => Ok (l, [])
    | (_, e) :: es =>
      '(_, l1, ws1) <- addToTree l (ser_tree (deser_log e)) ;;
      '(l2, ws2) <- readd l1 es ;;
      Ok (l2, ws1 ++ ws2)
    end.

  (** ledger.py:94-105 [recoverTreeFromTxnLog]; compact_merkle_tree.py:291-294 [reset];
      db_hash_store.py:107-111 (nodes are dropped before leaves). *)
  Definition recoverTreeFromTxnLog (d : disk) : res (ledger * list write) :=
    let ws0 := [WResetNodes; WResetLeaves] in
    let l0 := mkLedger empty_tree 0 0 (apply_writes d ws0) in
    '(l, ws) <- readd l0 (kv_iter (d_log d)) ;;
    Ok (l, ws0 ++ ws).

  (** ledger.py:107-113 [recoverTreeFromHashStore] *)
  Definition recoverTreeFromHashStore (d : disk) : res ledger :=
    let s := open_store (d_leaves d) (d_nodes d) in
    let treeSize := s_leafCount s in
    hs <- inclusion_proof H s treeSize (treeSize + 1) ;;
    t <- update treeSize (rev hs) ;;
    _ <- verify_consistency s (kv_size (d_log d)) ;;
    Ok (mkLedger t treeSize treeSize d).

  (** ledger.py:70-88 [recoverTree], with a persistent hash store, run by __init__
      (line 66). Only ConsistencyVerificationFailed is caught. [read_only] ledgers are
      not modelled; genesis transactions are ordinary [add]s. *)
  Definition recoverTree (d : disk) : res (ledger * list write) :=
    if kv_size (d_leaves d) =? 0 then recoverTreeFromTxnLog d
    else match recoverTreeFromHashStore d with
         | Err ConsistencyVerificationFailed => recoverTreeFromTxnLog d
         | Err e => Err e
         | Ok l => Ok (l, [])
         end.

  (** Starting a ledger on a disk. *)
  Definition restart (d : disk) : res ledger := '(l, _) <- recoverTree d ;; Ok l.

  (** ledger.py:185-187, 192-194 *)
  Definition size (l : ledger) : nat := tree_size (l_tree l).
  Definition ledger_root (l : ledger) : res bytes := root_hash H (l_tree l).

  (** ledger.py:167-174 [getBySeqNo]: a missing key raises KeyError; an empty stored
      value would be returned as it is ([None] here). *)
  Definition getBySeqNo (l : ledger) (seqNo : nat) : res (option txn) :=
    match kv_get seqNo (d_log (l_disk l)) with
    | None => Err KeyError
    | Some [] => Ok None
    | Some v => Ok (Some (deser_log v))
    end.

  (** ledger.py:248-253 [getAllTxn(frm, to)] with both bounds: the iterator starts at the
      first key not below [frm]. *)
  Fixpoint take_upto (to : nat) (m : kv) : list (nat * txn) :=
    match m with
    | [] => []
    | (k, v) :: m' => if k <=? to then (k, deser_log v) :: take_upto to m' else []
    end.
  Definition getAllTxn (l : ledger) (frm to : nat) : list (nat * txn) :=
    take_upto to (filter (fun '(k, _) => frm <=? k) (kv_iter (d_log (l_disk l)))).

  (** ledger.py:196-205 [merkleInfo], 207-217 [auditProof] *)
  Definition merkleInfo (l : ledger) (seqNo : nat) : res (bytes * list bytes) :=
    if seqNo <=? 0 then Err PlenumValueError else
    r <- merkle_tree_hash H (l_store l) 0 seqNo ;;
    p <- inclusion_proof H (l_store l) (seqNo - 1) seqNo ;;
    Ok (r, p).
  Definition auditProof (l : ledger) (seqNo : nat) : res (bytes * list bytes * nat) :=
    if seqNo <=? 0 then Err PlenumValueError else
    r <- merkle_tree_hash H (l_store l) 0 (size l) ;;
    p <- inclusion_proof H (l_store l) (seqNo - 1) (size l) ;;
    Ok (r, p, size l).

  (** ** plenum/common/ledger.py *)

  (** plenum/common/ledger.py:14-20 *)
  Record pledger := mkP
    { p_base : ledger; p_unc : list txn; p_uncRoot : option bytes; p_uncTree : option tree }.
  Definition fresh (l : ledger) : pledger := mkP l [] None None.

  (** lines 22-28; an empty bytes object is false in a condition *)
  Definition uncommitted_size (p : pledger) : nat := size (p_base p) + length (p_unc p).
  Definition uncommitted_root_hash (p : pledger) : res bytes :=
    match p_uncRoot p with
    | Some (b :: r) => Ok (b :: r)
    | _ => ledger_root (p_base p)
    end.

  (** lines 67-73 [_append_seq_no] *)
  Fixpoint append_seq_no (txns : list txn) (start : nat) : list txn :=
    match txns with
    | [] => []
    | x :: xs => mkTxn (t_body x) (Some (start + 1)) :: append_seq_no xs (start + 1)
    end.
  (** lines 30-36 [append_txns_metadata]; the transaction time is part of the body. *)
  Definition append_txns_metadata (p : pledger) (txns : list txn) : list txn :=
    append_seq_no txns (l_seqNo (p_base p) + length (p_unc p)).

  (** lines 129-143 [treeWithAppliedTxns]; the copy has no persistent hash store.
      [currentTree or self.tree]: a tree of size 0 is false ([__len__]). *)
  Fixpoint tree_appends (t : tree) (txns : list txn) : res tree :=
    match txns with
    | [] => Ok t
    | x :: xs => '(_, (t', _, _)) <- append H t (ser_tree x) ;; tree_appends t' xs
    end.
  Definition treeWithAppliedTxns (p : pledger) (txns : list txn) (cur : option tree) : res tree :=
    let base := match cur with
                | Some t => if tree_size t =? 0 then l_tree (p_base p) else t
                | None => l_tree (p_base p)
                end in
    tree_appends base txns.

  (** lines 38-57 [appendTxns] *)
  Definition appendTxns (p : pledger) (txns : list txn) : res ((nat * nat) * pledger) :=
    if existsb (fun x => match t_seq x with None => true | Some _ => false end) txns
    then Err PlenumValueError else
    let uncommittedSize := size (p_base p) + length (p_unc p) in
    t <- treeWithAppliedTxns p txns (p_uncTree p) ;;
    r <- root_hash H t ;;
    let p' := mkP (p_base p) (p_unc p ++ txns) (Some r) (Some t) in
    Ok (match txns with
        | [] => (uncommittedSize, uncommittedSize)
        | _ => (uncommittedSize + 1, uncommittedSize + length txns)
        end, p').

  (** lines 59-65 [add] *)
  Definition p_add (p : pledger) (x : txn) : res (merkle_info * pledger * list write) :=
    let x' := match t_seq x with
              | None => mkTxn (t_body x) (Some (l_seqNo (p_base p) + 1))
              | Some _ => x
              end in
    '(mi, l, ws) <- base_add (p_base p) x' ;;
    Ok (mi, mkP l (p_unc p) (p_uncRoot p) (p_uncTree p), ws).

  (** lines 84-86: commit the given transactions one by one ([append] is [add]) *)
  Fixpoint adds (p : pledger) (txns : list txn) : res (pledger * list merkle_info * list write) :=
    match txns with
    | [] => Ok (p, [], [])
    | x :: xs =>
      '(mi, p1, ws1) <- p_add p x ;;
      '(p2, mis, ws2) <- adds p1 xs ;;
      Ok (p2, mi :: mis, ws1 ++ ws2)
    end.

  (** lines 75-100 [commitTxns]: sequence number range, committed transactions with their
      merkle info, new ledger, writes. Negative counts are not modelled. *)
  Definition commitTxns (p : pledger) (count : nat)
    : res ((nat * nat) * list (txn * merkle_info) * pledger * list write) :=
    let committedSize := size (p_base p) in
    let txns := firstn count (p_unc p) in
    '(p1, mis, ws) <- adds p txns ;;
    let rest := skipn count (p_unc p) in
    let p2 := match rest with
              | [] => mkP (p_base p1) [] None None
              | _ => mkP (p_base p1) rest (p_uncRoot p1) (p_uncTree p1)
              end in
    Ok (match txns with
        | [] => (committedSize, committedSize)
        | _ => (committedSize + 1, committedSize + count)
        end, combine txns mis, p2, ws).

  (** lines 102-127 [discardTxns] *)
  Definition discardTxns (p : pledger) (count : nat) : res pledger :=
    if count =? 0 then Ok p
    else if length (p_unc p) <? count then Err LogicError
    else
      let rest := firstn (length (p_unc p) - count) (p_unc p) in
      match rest with
      | [] => Ok (mkP (p_base p) [] None None)
      | _ =>
        t <- treeWithAppliedTxns p rest None ;;
        r <- root_hash H t ;;
        Ok (mkP (p_base p) rest (Some r) (Some t))
      end.

  (** lines 145-148 *)
  Definition reset_uncommitted (p : pledger) : pledger := mkP (p_base p) [] None None.

  (** lines 153-161 *)
  Definition get_last_committed_txn (p : pledger) : res (option txn) :=
    if 0 <? size (p_base p) then getBySeqNo (p_base p) (size (p_base p)) else Ok None.
  Definition get_last_txn (p : pledger) : res (option txn) :=
    match rev (p_unc p) with
    | x :: _ => Ok (Some x)
    | [] => get_last_committed_txn p
    end.

  (** lines 163-168 *)
  Definition get_by_seq_no_uncommitted (p : pledger) (seq_no : nat) : res (option txn) :=
    if uncommitted_size p <? seq_no then Err KeyError
    else if size (p_base p) <? seq_no then
      match nth_error (p_unc p) (seq_no - size (p_base p) - 1) with
      | Some x => Ok (Some x)
      | None => Err IndexError
      end
    else getBySeqNo (p_base p) seq_no.

  (** ** Histories *)

  (** Everything a node does to a ledger: [OApply] = append_txns_metadata then appendTxns
      (as in write_request_manager), [OCrash] = the process dies inside commitTxns(count)
      after [k] of its writes, then every restart in [js] dies after that many writes of
      its recovery, then a restart completes. *)
  Inductive op :=
  | OApply (bodies : list B)
  | OCommit (count : nat)
  | ODiscard (count : nat)
  | OReset
  | OAdd (body : B)
  | OCrash (count k : nat) (js : list nat).

  Fixpoint crash_restarts (d : disk) (js : list nat) : res disk :=
    match js with
    | [] => Ok d
    | j :: js' => '(_, ws) <- recoverTree d ;; crash_restarts (apply_writes d (firstn j ws)) js'
    end.

  Definition step (p : pledger) (o : op) : res pledger :=
    match o with
    | OApply bodies =>
      '(_, p') <- appendTxns p (append_txns_metadata p (map (fun b => mkTxn b None) bodies)) ;; Ok p'
    | OCommit count => '(_, _, p', _) <- commitTxns p count ;; Ok p'
    | ODiscard count => discardTxns p count
    | OReset => Ok (reset_uncommitted p)
    | OAdd body => '(_, p', _) <- p_add p (mkTxn body None) ;; Ok p'
    | OCrash count k js =>
      '(_, _, _, ws) <- commitTxns p count ;;
      d <- crash_restarts (apply_writes (l_disk (p_base p)) (firstn k ws)) js ;;
      l <- restart d ;; Ok (fresh l)
    end.

  Fixpoint run (p : pledger) (os : list op) : res pledger :=
    match os with
    | [] => Ok p
    | o :: os' => p' <- step p o ;; run p' os'
    end.

  (** The ledger of a new node: a restart on an empty disk. *)
  Definition new_ledger : res pledger := l <- restart empty_disk ;; Ok (fresh l).
End Ledger.

Arguments mkTxn {B}. Arguments t_body {B}. Arguments t_seq {B}.
Arguments OApply {B}. Arguments OCommit {B}. Arguments ODiscard {B}. Arguments OReset {B}.
Arguments OAdd {B}. Arguments OCrash {B}.
Arguments mkP {B}. Arguments p_base {B}. Arguments p_unc {B}. Arguments p_uncRoot {B}. Arguments p_uncTree {B}.
Arguments fresh {B}. Arguments append_seq_no {B}. Arguments append_txns_metadata {B}. Arguments uncommitted_size {B}.
Arguments reset_uncommitted {B}.
