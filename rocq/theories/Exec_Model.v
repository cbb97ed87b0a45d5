(** Model of how batches are applied to the ledgers and states, ordered, executed and reverted, and of
    the index of written requests: plenum/server/consensus/ordering_service.py (_apply_pre_prepare,
    _validate_applied_pre_prepare, _revert, revert_unordered_batches, create_3pc_batch, _order_3pc_key,
    _do_dynamic_validation), plenum/server/batch_handlers/batch_request_handler.py (_commit),
    plenum/common/ledger.py (appendTxns, commitTxns, discardTxns), plenum/server/node.py (executeBatch,
    apply_stashed_reqs, updateSeqNoMap, getReplyFromLedgerForRequest,
    postTxnFromCatchupAddedToLedger), plenum/persistence/req_id_to_txn.py.
    A root hash is represented by the list of transactions it is the root of (C01, C05, C11: roots
    determine the content up to collisions). The audit ledger (C41) is not modelled but for the number of
    its uncommitted transactions, which is the number of applied batches: its root in a PrePrepare is
    computed by whoever makes the PrePrepare from the ledgers modelled here. *)
From Coq Require Import List Arith Bool.
Import ListNotations.

(** A request is known by its payload digest (author, request number, operation) and its full digest
    (signatures too): plenum/common/request.py:40-49, 79-83 *)
Record req := mkR { r_pay : nat; r_full : nat }.
(** A transaction is the request with the time of its batch: write_request_handler.py:45-56 *)
Record txn := mkX { x_req : req; x_time : nat }.
Definition req_eqb (a b : req) : bool := (r_pay a =? r_pay b) && (r_full a =? r_full b).
Definition txn_eqb (a b : txn) : bool := req_eqb (x_req a) (x_req b) && (x_time a =? x_time b).
Fixpoint txns_eqb (a b : list txn) : bool :=
  match a, b with [], [] => true | x :: a', y :: b' => txn_eqb x y && txns_eqb a' b' | _, _ => false end.

(** a ledger with its state: the committed and the uncommitted transactions, the transactions behind the
    uncommitted and behind the committed state *)
Record ledger := mkL { l_com : list txn; l_unc : list txn; l_head : list txn; l_chead : list txn }.
(** PrePrepare: ledgerId, reqIdr, discarded, ppTime, stateRootHash, txnRootHash, and whether sub_seq_no
    is 0 and final is true, as in every PrePrepare this code makes (ordering_service.py:2078-2096) *)
Record pp := mkPP { p_lid : nat; p_reqs : list req; p_disc : list nat; p_time : nat; p_sroot : list txn; p_troot : list txn; p_whole : bool }.
(** an applied batch: ordering_service.py:1241-1252 (_track_batches), and whether it is ordered *)
Record abatch := mkB { b_pp : pp; b_before : list txn; b_ord : bool }.
Record node := mkN {
  n_l : nat -> ledger;
  n_db : list (nat * (nat * nat));      (* payload digest -> ledger and sequence number *)
  n_full : list (nat * nat);            (* full digest -> payload digest *)
  n_app : list abatch                   (* applied batches, oldest first *)
}.
Definition upd (f : nat -> ledger) (k : nat) (v : ledger) : nat -> ledger := fun i => if i =? k then v else f i.
Fixpoint get {V} (k : nat) (m : list (nat * V)) : option V :=
  match m with [] => None | (k', v) :: m' => if k' =? k then Some v else get k m' end.

Section Exec.
  (** the ledger of a request, by the type of its operation (ordering_service.py:1785-1792), and its
      request number: both are part of the payload *)
  Variable lid_of id_of : nat -> nat.
  (** whether the transaction author agreement and the handlers accept a request in the uncommitted
      states at a time (C57, C58: write_request_manager.do_taa_validation, dynamic_validation) *)
  Variable ok : (nat -> list txn) -> req -> nat -> bool.
  Definition heads (n : node) : nat -> list txn := fun l => l_head (n_l n l).

  (** ordering_service.py:1794-1828 [_do_dynamic_validation], [_process_req_during_batch] *)
  Inductive processed := RApplied (n : node) | RInvalid | RSuspicious.
  Definition is_known (n : node) (r : req) : bool :=
    match get (r_pay r) (n_db n) with Some _ => true | None => false end.
  Definition is_pending (n : node) (r : req) : bool :=
    existsb (fun x => r_pay (x_req x) =? r_pay r) (l_unc (n_l n (lid_of (r_pay r)))).
  (** write_request_handler.py:45-56, ledger.py:38-57 *)
  Definition apply_req (n : node) (r : req) (t : nat) : node :=
    let k := lid_of (r_pay r) in let l := n_l n k in let x := mkX r t in
    mkN (upd (n_l n) k (mkL (l_com l) (l_unc l ++ [x]) (l_head l ++ [x]) (l_chead l))) (n_db n) (n_full n) (n_app n).
  Definition process_req (n : node) (r : req) (t : nat) : processed :=
    if is_known n r then RSuspicious
    else if is_pending n r then RSuspicious
    else if ok (heads n) r t then RApplied (apply_req n r t) else RInvalid.

  (** ordering_service.py:1138-1179 [_apply_pre_prepare]: the node after it, the indices of the requests
      not applied, and whether some request was ordered before *)
  Fixpoint apply_reqs (n : node) (i : nat) (rs : list req) (t : nat) : node * list nat * bool :=
    match rs with
    | [] => (n, [], false)
    | r :: rs' =>
      match process_req n r t with
      | RApplied m => apply_reqs m (S i) rs' t
      | RInvalid => let '(m, inv, s) := apply_reqs n (S i) rs' t in (m, i :: inv, s)
      | RSuspicious => let '(m, inv, s) := apply_reqs n (S i) rs' t in (m, i :: inv, true)
      end
    end.
  (** ordering_service.py:1229-1239 [_revert], ledger.py:102-127 [discardTxns]; None is LogicError *)
  Definition revert (n : node) (lid : nat) (before : list txn) (count : nat) : option node :=
    let l := n_l n lid in
    if length (l_unc l) <? count then None
    else Some (mkN (upd (n_l n) lid (mkL (l_com l) (firstn (length (l_unc l) - count) (l_unc l)) before (l_chead l))) (n_db n) (n_full n) (n_app n)).
  Definition track (n : node) (b : abatch) : node := mkN (n_l n) (n_db n) (n_full n) (n_app n ++ [b]).
  (** ordering_service.py:892-949, 1184-1202 [_apply_and_validate_applied_pre_prepare]: with whether the
      batch is accepted *)
  Definition process_pp (n : node) (p : pp) : option (node * bool) :=
    let before := l_head (n_l n (p_lid p)) in
    let '(m, inv, susp) := apply_reqs n 0 (p_reqs p) (p_time p) in
    let l := n_l m (p_lid p) in
    if negb (p_whole p) then Some (m, false)    (* lines 906-911: returns before the revert *)
    else if negb susp && (length inv =? length (p_disc p)) && txns_eqb (p_sroot p) (l_head l) && txns_eqb (p_troot p) (l_com l ++ l_unc l)
    then Some (track m (mkB p before false), true)
    else match revert m (p_lid p) before (length (p_reqs p) - length inv) with Some m' => Some (m', false) | None => None end.

  (** ordering_service.py:2130-2165 [_consume_req_queue_for_pre_prepare]: the node after it, the requests
      of the batch, the indices of the rejected ones. The queue of a ledger holds requests of that ledger
      only (replica.py:507). *)
  Fixpoint consume (n : node) (i : nat) (rs : list req) (t : nat) : node * list req * list nat :=
    match rs with
    | [] => (n, [], [])
    | r :: rs' =>
      match process_req n r t with
      | RApplied m => let '(m', out, inv) := consume m (S i) rs' t in (m', r :: out, inv)
      | RInvalid => let '(m', out, inv) := consume n (S i) rs' t in (m', r :: out, i :: inv)
      | RSuspicious => consume n i rs' t
      end
    end.
  Definition queue (lid : nat) (rs : list req) : list req := filter (fun r => lid_of (r_pay r) =? lid) rs.
  (** ordering_service.py:2026-2108 [create_3pc_batch], [_do_send_3pc_batch] *)
  Definition create (n : node) (lid : nat) (rs : list req) (t : nat) : node * pp :=
    let '(m, out, inv) := consume n 0 (queue lid rs) t in
    let l := n_l m lid in
    let p := mkPP lid out inv t (l_head l) (l_com l ++ l_unc l) true in
    (track m (mkB p (l_head (n_l n lid)) false), p).

  (** ordering_service.py:1500-1508 and node.py:2232-2236: the requests reported as ordered *)
  Fixpoint keep (i : nat) (rs : list req) (disc : list nat) : list req :=
    match rs with
    | [] => []
    | r :: rs' => if existsb (Nat.eqb i) disc then keep (S i) rs' disc else r :: keep (S i) rs' disc
    end.
  Definition valid_reqs (p : pp) : list req := keep 0 (p_reqs p) (p_disc p).

  (** node.py:2748-2751 [updateSeqNoMap], req_id_to_txn.py:26-37: nothing is stored if some request number
      is missing or 0 *)
  Fixpoint add_batch (db : list (nat * (nat * nat))) (full : list (nat * nat)) (lid first : nat) (xs : list txn) : list (nat * (nat * nat)) * list (nat * nat) :=
    match xs with
    | [] => (db, full)
    | x :: xs' => add_batch ((r_pay (x_req x), (lid, first)) :: db) ((r_full (x_req x), r_pay (x_req x)) :: full) lid (S first) xs'
    end.
  Definition update_map (db : list (nat * (nat * nat))) (full : list (nat * nat)) (lid first : nat) (xs : list txn) :=
    if forallb (fun x => negb (id_of (r_pay (x_req x)) =? 0)) xs then add_batch db full lid first xs else (db, full).

  (** node.py:2668-2700 [executeBatch], batch_request_handler.py:39-55 [_commit], ledger.py:75-100
      [commitTxns]; None is PlenumValueError, raised when the transactions are in the ledger already *)
  Definition commit (n : node) (p : pp) : option node :=
    let l := n_l n (p_lid p) in let k := length (valid_reqs p) in
    let xs := firstn k (l_unc l) in let com := l_com l ++ xs in
    if txns_eqb com (p_troot p) then
      let '(db, full) := update_map (n_db n) (n_full n) (p_lid p) (S (length (l_com l))) xs in
      Some (mkN (upd (n_l n) (p_lid p) (mkL com (skipn k (l_unc l)) (l_head l) (p_sroot p))) db full (n_app n))
    else None.

  (** ordering_service.py:2186-2210 [revert_unordered_batches], youngest first; [bs] is reversed *)
  Fixpoint revert_all (n : node) (bs : list abatch) : option node :=
    match bs with
    | [] => Some n
    | b :: bs' =>
      match revert n (p_lid (b_pp b)) (b_before b) (length (p_reqs (b_pp b)) - length (p_disc (b_pp b))) with
      | None => None
      | Some m => revert_all m bs'
      end
    end.
  Definition with_app (n : node) (bs : list abatch) : node := mkN (n_l n) (n_db n) (n_full n) bs.
  Fixpoint mark (bs : list abatch) : list abatch :=
    match bs with [] => [] | b :: bs' => if b_ord b then b :: mark bs' else mkB (b_pp b) (b_before b) true :: bs' end.

  Inductive event :=
  | ECreate (lid : nat) (rs : list req) (t : nat)   (* the node is primary and makes a batch of its queue *)
  | EPrePrepare (p : pp)                            (* a PrePrepare passed the checks made before applying *)
  | EOrder                                          (* the next applied batch gets its Commits *)
  | EExec                                           (* the node executes the next ordered batch *)
  | EStashed (p : pp)                               (* a batch reverted since is ordered: node.py:2202-2216 *)
  | ERevert                                         (* a view change or a catch-up starts *)
  | ECaught (lid : nat) (x : txn)                   (* catch-up adds a transaction: node.py:1748-1765 *)
  | ERestart.

  (** node.py:1966-1986 [apply_stashed_reqs] *)
  Fixpoint apply_stashed (n : node) (rs : list req) (t : nat) : node :=
    match rs with
    | [] => n
    | r :: rs' => apply_stashed (apply_req n r t) rs' t
    end.
  Definition step (n : node) (e : event) : option node :=
    match e with
    | ECreate lid rs t => Some (fst (create n lid rs t))
    | EPrePrepare p => match process_pp n p with Some (m, _) => Some m | None => None end
    | EOrder => Some (with_app n (mark (n_app n)))
    | EExec =>
      match n_app n with
      | b :: bs => if b_ord b then match commit n (b_pp b) with Some m => Some (with_app m bs) | None => None end else Some n
      | [] => Some n
      end
    | EStashed p =>
      match n_app n with
      | [] => commit (apply_stashed n (filter (fun r => negb (is_known n r)) (valid_reqs p)) (p_time p)) p
      | _ => Some n
      end
    | ERevert =>
      let ord := filter b_ord (n_app n) in
      match revert_all n (rev (filter (fun b => negb (b_ord b)) (n_app n))) with Some m => Some (with_app m ord) | None => None end
    | ECaught lid x =>
      match n_app n with
      | _ :: _ => None
      | [] =>
        let l := n_l n lid in
        let '(db, full) := update_map (n_db n) (n_full n) lid (S (length (l_com l))) [x] in
        Some (mkN (upd (n_l n) lid (mkL (l_com l ++ [x]) (l_unc l) (l_head l ++ [x]) (l_head l ++ [x]))) db full [])
      end
    | ERestart => Some (mkN (fun k => let l := n_l n k in mkL (l_com l) [] (l_chead l) (l_chead l)) (n_db n) (n_full n) [])
    end.
  Fixpoint run (n : node) (es : list event) : option node :=
    match es with [] => Some n | e :: es' => match step n e with Some m => run m es' | None => None end end.
  Definition init : node := mkN (fun _ => mkL [] [] [] []) [] [] [].

  (** node.py:2994-3004 [getReplyFromLedgerForRequest]: what a client sending the request is answered *)
  Inductive answer := Written (lid seq_no : nat) (x : txn) | AlreadyWithOtherSignatures | NotWritten | Lost.
  Definition reply (n : node) (r : req) : answer :=
    match get (r_pay r) (n_db n) with
    | None => NotWritten
    | Some (lid, s) =>
      match get (r_full r) (n_full n) with
      | None => AlreadyWithOtherSignatures
      | Some _ => match nth_error (l_com (n_l n lid)) (s - 1) with Some x => Written lid s x | None => Lost end
      end
    end.
End Exec.
