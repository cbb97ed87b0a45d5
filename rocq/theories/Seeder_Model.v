(** Model of plenum/server/catchup/seeder_service.py: what a node answers to a node that is
    catching up, and of the two handlers of plenum/server/message_handlers.py that serve
    ledger statuses and consistency proofs on request. *)
From Coq Require Import List Arith Bool.
From Verif Require Import Base Dict Bits_Model Merkle_Model Ledger_Model CatchupReq_Model Catchup_Model.
Import ListNotations.
Local Open Scope res_scope.

(** node_messages.py:384-395 ConsistencyProof; Ledger.hashToStr (base58) of the roots and
    hashes is not modelled. *)
Record cproof := mkCP
  { c_ledger : nat; c_start : nat; c_end : nat; c_view : nat; c_pp : nat;
    c_old : bytes; c_new : bytes; c_hashes : list bytes }.

(** node_messages.py:366-381 LedgerStatus; viewNo and ppSeqNo may be null. *)
Record lstatus := mkLS { ls_ledger : nat; ls_size : nat; ls_view : option nat; ls_pp : option nat; ls_root : bytes }.

Section Seeder.
  Variable H : bytes -> bytes.
  Variable B : Type.
  Variable deser_log : bytes -> txn B.
  (** provider.ledger: None if there is no such ledger *)
  Variable ledgers : nat -> option (pledger B).
  (** provider.update_txn_with_extra_data (node.py:3017-3026 returns its argument) *)
  Variable extra : txn B -> txn B.

  (** lines 101-105 [_make_consistency_proof] *)
  Definition make_consistency_proof (p : pledger B) (seq_no_start seq_no_end : nat) : res (list bytes) :=
    consistency_proof H (l_store (p_base p)) seq_no_start seq_no_end.

  (** lines 49-95 [process_catchup_req]; None: discarded. The numbers of CatchupReq are not
      negative (node_messages.py:398-405). The keys of [txns] become their decimal
      spellings when the reply is serialized. *)
  Definition process_catchup_req (ledger_id start end_ till : nat) : res (option (rep B)) :=
    match ledgers ledger_id with
    | None => Ok None
    | Some p =>
      if start <? 1 then Ok None
      else if end_ <? start then Ok None
      else if till <? end_ then Ok None
      else if size (p_base p) <? till then Ok None
      else
        cons_proof <- make_consistency_proof p end_ till ;;
        let txns := map (fun '(seq_no, x) => ((seq_no, 0), extra x)) (getAllTxn B deser_log (p_base p) start end_) in
        Ok (Some (mkRep B ledger_id (Some txns) (Some cons_proof)))
    end.

  (** lines 152-177 [_make_splitter_for_catchup_rep]: None if the reply cannot be split. *)
  Definition split (p : pledger B) (initial_seq_no : nat) (message : rep B) : res (option (list (rep B))) :=
    match r_txns B message with
    | None => Ok None
    | Some txns =>
      if length txns <? 2 then Ok None
      else
        let divider := Nat.div2 (length txns) in
        let left_ := firstn divider txns in
        let right_ := skipn divider txns in
        match rev left_, rev right_ with
        | ((left_last_seq_no, _), _) :: _, ((right_last_seq_no, _), _) :: _ =>
          left_cons_proof <- make_consistency_proof p left_last_seq_no initial_seq_no ;;
          right_cons_proof <- make_consistency_proof p right_last_seq_no initial_seq_no ;;
          let ledger_id := r_ledger B message in
          Ok (Some [mkRep B ledger_id (Some left_) (Some left_cons_proof);
                    mkRep B ledger_id (Some right_) (Some right_cons_proof)])
        | _, _ => Err IndexError
        end
    end.

  (** lines 107-150 [_build_consistency_proof]; for an unknown ledger [ledger.size] raises. *)
  Definition build_consistency_proof (ledger_id seq_no_start seq_no_end : nat) : res (option cproof) :=
    match ledgers ledger_id with
    | None => Err AttributeError
    | Some p =>
      if seq_no_end <? seq_no_start then Ok None
      else if size (p_base p) <? seq_no_start then Ok None
      else if size (p_base p) <? seq_no_end then Ok None
      else
        '(old_root, proof) <-
          (if seq_no_start =? 0 then
             old_root <- ledger_root H (p_base p) ;;
             Ok (old_root, [old_root])
           else
             proof <- make_consistency_proof p seq_no_start seq_no_end ;;
             old_root <- merkle_tree_hash H (l_store (p_base p)) 0 seq_no_start ;;
             Ok (old_root, proof)) ;;
        new_root <- merkle_tree_hash H (l_store (p_base p)) 0 seq_no_end ;;
        Ok (Some (mkCP ledger_id seq_no_start seq_no_end 0 0 old_root new_root proof))
    end.

  (** what is sent back *)
  Inductive reply := RNothing | RProof (c : cproof) | RStatus (s : lstatus).

  (** utils.py:97-107 [build_ledger_status] *)
  Definition build_ledger_status (ledger_id : nat) : res lstatus :=
    match ledgers ledger_id with
    | None => Err ValueError
    | Some p => r <- ledger_root H (p_base p) ;; Ok (mkLS ledger_id (size (p_base p)) (Some 0) (Some 0) r)
    end.

  (** lines 24-47 [process_ledger_status]; lines 184-198: only the seeder for clients
      answers a status that is not behind. *)
  Definition process_ledger_status (client : bool) (ledger_id txnSeqNo : nat) : res reply :=
    match ledgers ledger_id with
    | None => Ok RNothing
    | Some p =>
      if size (p_base p) <=? txnSeqNo then
        if client then s <- build_ledger_status ledger_id ;; Ok (RStatus s) else Ok RNothing
      else
        c <- build_consistency_proof ledger_id txnSeqNo (size (p_base p)) ;;
        Ok (match c with Some c => RProof c | None => RNothing end)
    end.

  (** message_handlers.py:112-138 ConsistencyProofHandler, [validate] and [requestor]; a
      request may carry anything, [None] being what is no integer. [ids] is node.ledger_ids. *)
  Definition serve_consistency_proof (ids : list nat) (ledger_id seq_no_start seq_no_end : option nat)
    : res reply :=
    match ledger_id, seq_no_start, seq_no_end with
    | Some lid, Some a, Some b =>
      if existsb (Nat.eqb lid) ids && (0 <? a) && (0 <? b) then
        c <- build_consistency_proof lid a b ;;
        Ok (match c with Some c => RProof c | None => RNothing end)
      else Ok RNothing
    | _, _, _ => Ok RNothing
    end.

  (** message_handlers.py:91-109 LedgerStatusHandler and node.py:786-790, 1919-1926
      [getLedgerStatus] *)
  Definition serve_ledger_status (ids : list nat) (ledger_id : option nat) : res reply :=
    match ledger_id with
    | Some lid =>
      if existsb (Nat.eqb lid) ids then
        match ledgers lid with
        | None => Err AttributeError
        | Some p => r <- ledger_root H (p_base p) ;; Ok (RStatus (mkLS lid (size (p_base p)) None None r))
        end
      else Ok RNothing
    | None => Ok RNothing
    end.
End Seeder.
