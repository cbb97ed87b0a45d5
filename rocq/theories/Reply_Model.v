(** Model of replies that have a transaction: those of committed writes, of repeated writes, and of
    GET_TXN.
    plenum/server/node.py (commitAndSendReplies, updateSeqNoMap, getReplyFromLedgerForRequest,
    getReplyFromLedger, process_query), plenum/server/request_handlers/get_txn_handler.py,
    plenum/persistence/req_id_to_txn.py.

    One ledger, that of Ledger_Model.v, with the audit transactions as far as they have a state root
    for it, the index of requests (entries of other ledgers left out) and the store of
    multi-signatures.  A reply is the transaction and what is added to it; hashes are bytes, their
    base58 form is left out. *)
From Coq Require Import List Arith Bool.
From Verif Require Import Base Merkle_Model Ledger_Model.
Import ListNotations.
Local Open Scope res_scope.

Section Reply.
  Variable H : bytes -> bytes.
  Variable B : Type.
  Variable ser_log : txn B -> bytes.
  Variable deser_log : bytes -> txn B.
  Variable ser_tree : txn B -> bytes.
  (** txn_util.py get_payload_digest, get_digest, and whether get_req_id gives something true *)
  Variables (payload_digest digest : B -> nat) (has_req_id : B -> bool).

  (** [r_size]: ledgerSize, only in replies to GET_TXN *)
  Record reply := Reply { r_txn : txn B; r_root : bytes; r_path : list bytes; r_size : option nat }.

  (** A multi-signature: state root and ledger root of its value *)
  Record msig := MultiSig { ms_state : bytes; ms_txn : bytes }.

  Record node := Node {
    n_p : pledger B;
    n_audit : list (option bytes);       (* AUDIT_TXN_STATE_ROOT of this ledger in each audit transaction *)
    n_payload : list (nat * option nat); (* payload digest -> sequence number, newest first *)
    n_full : list nat;                   (* full digests *)
    n_bls : list msig }.                 (* newest first *)

  (** node.py:3006-3015 [getReplyFromLedger] *)
  Definition getReplyFromLedger (l : ledger) (seq_no : nat) (write : bool) : res (option reply) :=
    t <- getBySeqNo B deser_log l seq_no ;;
    match t with
    | None => Ok None
    | Some x =>
        if write then '(r, p) <- merkleInfo H l seq_no ;; Ok (Some (Reply x r p None))
        else '(r, p, n) <- auditProof H l seq_no ;; Ok (Some (Reply x r p (Some n)))
    end.

  (** ** Requests that were ordered already *)
  (** req_id_to_txn.py:24-34 [addBatch]; a transaction without number would be stored with "None",
      which is read as nothing *)
  Definition add_batch (txns : list (txn B)) (n : node) : node :=
    Node (n_p n) (n_audit n)
      (fold_left (fun d x => (payload_digest (t_body x), t_seq x) :: d) txns (n_payload n))
      (fold_left (fun d x => digest (t_body x) :: d) txns (n_full n)) (n_bls n).
  (** 36-45 [get_by_payload_digest], 47-55 [get_by_full_digest] *)
  Fixpoint get_by_payload_digest (d : nat) (l : list (nat * option nat)) : option nat :=
    match l with [] => None | (d', s) :: l' => if d' =? d then s else get_by_payload_digest d l' end.
  Definition get_by_full_digest (d : nat) (l : list nat) : bool := existsb (Nat.eqb d) l.

  (** node.py:2748-2751 [updateSeqNoMap] *)
  Definition updateSeqNoMap (txns : list (txn B)) (n : node) : node :=
    if forallb (fun x => has_req_id (t_body x)) txns then add_batch txns n else n.

  (** node.py:2994-3004 [getReplyFromLedgerForRequest] *)
  Inductive answer := AReply (r : reply) | ANack | ANone.
  Definition getReplyFromLedgerForRequest (n : node) (payload full : nat) : res answer :=
    match get_by_payload_digest payload (n_payload n) with
    | Some seq_no =>
        if get_by_full_digest full (n_full n) then
          r <- getReplyFromLedger (p_base (n_p n)) seq_no true ;;
          Ok (match r with Some r => AReply r | None => ANone end)
        else Ok ANack
    | None => Ok ANone
    end.

  (** ** GET_TXN *)
  (** get_txn_handler.py:46-53: the newest audit transaction that has a state root for the ledger *)
  Definition truthy (r : option bytes) : bool := match r with Some (_ :: _) => true | _ => false end.
  Definition last_state_root (audit : list (option bytes)) : option bytes :=
    match find truthy (rev audit) with Some r => r | None => None end.
  (** plenum/bls/bls_store.py:30-37 [get] *)
  Definition bls_get (root : bytes) (s : list msig) : option msig := find (fun m => bytes_eqb (ms_state m) root) s.

  (** 32-79 [get_result] *)
  Definition result : Type := option reply * option msig.
  Definition get_txn (n : node) (seq_no : nat) : res result :=
    match getReplyFromLedger (p_base (n_p n)) seq_no false with
    | Err KeyError => Ok (None, None)
    | Err e => Err e
    | Ok t => Ok (t, match last_state_root (n_audit n) with Some r => bls_get r (n_bls n) | None => None end)
    end.

  (** node.py:2074-2083 [process_query] with get_txn_handler.py:21-30 [static_validation] and 34-37;
      [known]: the ledger is one of the node's *)
  Inductive sent := SAck | SNack | SReply (r : result) | SReplyNack.
  Definition process_query (n : node) (known : bool) (seq_no : nat) : res (list sent) :=
    let first := if known && negb (seq_no <? 1) then SAck else SNack in
    if known then r <- get_txn n seq_no ;; Ok [first; SReply r] else Ok [first; SReplyNack].

  (** ** What happens to the node.
      [EOp]: an operation on the ledger of which nothing else takes notice.
      [EBatch k r]: a batch with [k] transactions and state root [r] is committed and replied to
      (node.py:2753-2759; the ledger, then the audit ledger, then the index).
      [ECaught]: a transaction of a catch-up (node.py:1747-1766).
      [EAudit]: an audit transaction for a batch of another ledger, or one of a catch-up.
      [EMulti]: a multi-signature goes to its store. *)
  Inductive event :=
  | EOp (o : op B) | EBatch (k : nat) (r : bytes) | ECaught (b : B) | EAudit (r : option bytes) | EMulti (m : msig).

  Definition step (n : node) (e : event) : res (node * list reply) :=
    match e with
    | EOp o => p <- Ledger_Model.step H B ser_log deser_log ser_tree (n_p n) o ;;
               Ok (Node p (n_audit n) (n_payload n) (n_full n) (n_bls n), [])
    | EBatch k r =>
        '(_, pairs, p, _) <- commitTxns H B ser_log ser_tree (n_p n) k ;;
        Ok (updateSeqNoMap (map fst pairs) (Node p (n_audit n ++ [Some r]) (n_payload n) (n_full n) (n_bls n)),
            map (fun '(x, (_, root, path)) => Reply x root path None) pairs)
    | ECaught b =>
        '(_, p, _) <- p_add H B ser_log ser_tree (n_p n) (mkTxn b None) ;;
        let x := mkTxn b (Some (size (p_base p))) in
        Ok (updateSeqNoMap [x] (Node p (n_audit n) (n_payload n) (n_full n) (n_bls n)), [])
    | EAudit r => Ok (Node (n_p n) (n_audit n ++ [r]) (n_payload n) (n_full n) (n_bls n), [])
    | EMulti m => Ok (Node (n_p n) (n_audit n) (n_payload n) (n_full n) (m :: n_bls n), [])
    end.
  Fixpoint run (n : node) (es : list event) : res (node * list reply) :=
    match es with
    | [] => Ok (n, [])
    | e :: es' => '(n1, o1) <- step n e ;; '(n2, o2) <- run n1 es' ;; Ok (n2, o1 ++ o2)
    end.
  Definition start (p : pledger B) : node := Node p [] [] [] [].

  (** What a client does with a reply to GET_TXN for number [n], given a ledger root that it trusts:
      ledger/merkle_verifier.py:240-266 with the size in the reply, and the number in the transaction *)
  Definition client_accepts (root : bytes) (n : nat) (r : reply) : Prop :=
    exists m, r_size r = Some m /\
      verify_leaf_inclusion H (ser_tree (r_txn r)) (n - 1) (r_path r) m root = Ok tt /\ t_seq (r_txn r) = Some n.
End Reply.
Arguments Reply {B}. Arguments r_txn {B}. Arguments r_root {B}. Arguments r_path {B}. Arguments r_size {B}.
Arguments Node {B}. Arguments n_p {B}. Arguments n_audit {B}. Arguments n_payload {B}. Arguments n_full {B}. Arguments n_bls {B}.
Arguments EOp {B}. Arguments EBatch {B}. Arguments ECaught {B}. Arguments EAudit {B}. Arguments EMulti {B}.
Arguments AReply {B}. Arguments ANack {B}. Arguments ANone {B}.
Arguments SAck {B}. Arguments SNack {B}. Arguments SReply {B}. Arguments SReplyNack {B}. Arguments start {B}.
