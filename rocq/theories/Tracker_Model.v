(** Model of plenum/common/ledger_uncommitted_tracker.py and of its use by the audit batch
    handler (plenum/server/batch_handlers/audit_batch_handler.py:20-50). *)
From Coq Require Import List Arith ZArith NArith Bool.
From Verif Require Import Base Merkle_Model Ledger_Model.
Import ListNotations.
Local Open Scope res_scope.

(** A (state root, txn root, ledger size) triple; roots are opaque to the tracker. *)
Section Tracker.
  Context {R : Type}.
  Definition triple : Type := R * R * Z.

  (** ledger_uncommitted_tracker.py:10-12, 61-62; [un_committed] has its left end first *)
  Record tracker := mkTracker { last_committed : triple; un_committed : list triple }.
  Definition new_tracker (h r : R) (size : Z) : tracker := mkTracker (h, r, size) [].
  Definition set_last_committed (t : tracker) (h r : R) (size : Z) : tracker :=
    mkTracker (h, r, size) (un_committed t).

  (** lines 14-27 *)
  Definition apply_batch (t : tracker) (h r : R) (size : Z) : res tracker :=
    if (size <? 0)%Z then Err PlenumValueError
    else Ok (mkTracker (last_committed t) (un_committed t ++ [(h, r, size)])).

  (** lines 29-43 *)
  Definition commit_batch (t : tracker) : res ((R * R * Z) * tracker) :=
    match un_committed t with
    | [] => Err PlenumValueError
    | (h, r, size) :: rest =>
      Ok ((h, r, (size - snd (last_committed t))%Z), mkTracker (h, r, size) rest)
    end.

  (** lines 45-59 *)
  Definition reject_batch (t : tracker) : res ((R * R * Z) * tracker) :=
    match rev (un_committed t) with
    | [] => Err LogicError
    | (_, _, prev_size) :: rest_rev =>
      let t' := mkTracker (last_committed t) (rev rest_rev) in
      match rest_rev with
      | [] => let '(h, r, size) := last_committed t in Ok ((h, r, (prev_size - size)%Z), t')
      | (h, r, size) :: _ => Ok ((h, r, (prev_size - size)%Z), t')
      end
    end.
End Tracker.
Arguments tracker : clear implicits.

(** ** The audit batch handler: a ledger and a tracker kept in step *)
Section Handler.
  Variable H : bytes -> bytes.
  Variable B : Type.
  Variable ser_log : txn B -> bytes.
  Variable deser_log : bytes -> txn B.
  Variable ser_tree : txn B -> bytes.

  Record handler := mkHandler { h_ledger : pledger B; h_tracker : tracker bytes }.

  (** audit_batch_handler.py:22-25 (the state root, None in the code, is the empty string) *)
  Definition new_handler (p : pledger B) : res handler :=
    r <- uncommitted_root_hash H B p ;;
    Ok (mkHandler p (new_tracker [] r (Z.of_nat (size (p_base p))))).

  (** lines 27-31 with [_add_to_ledger] (65-81): one audit transaction with the given body, or
      none for a batch without audit transaction. How the body is computed is modelled in
      Audit_Model.v. *)
  Definition post_batch_applied (h : handler) (body : option B) : res handler :=
    p <- match body with
         | None => Ok (h_ledger h)
         | Some b =>
           '(_, p) <- appendTxns H B ser_tree (h_ledger h)
                        (append_txns_metadata (h_ledger h) [mkTxn b None]) ;; Ok p
         end ;;
    r <- uncommitted_root_hash H B p ;;
    t <- apply_batch (h_tracker h) [] r (Z.of_nat (uncommitted_size p)) ;;
    Ok (mkHandler p t).

  (** A count handed to the ledger; a negative one never arises (the model reports it). *)
  Definition to_count (z : Z) : res nat := if (z <? 0)%Z then Err OutOfFuel else Ok (Z.to_nat z).

  (** lines 33-37 *)
  Definition post_batch_rejected (h : handler) : res handler :=
    '((_, _, n), t) <- reject_batch (h_tracker h) ;;
    c <- to_count n ;;
    p <- discardTxns H B ser_tree (h_ledger h) c ;;
    Ok (mkHandler p t).

  (** lines 39-44 *)
  Definition handler_commit_batch (h : handler) : res (list (txn B * merkle_info) * handler) :=
    '((_, _, n), t) <- commit_batch (h_tracker h) ;;
    c <- to_count n ;;
    '(_, txns, p, _) <- commitTxns H B ser_log ser_tree (h_ledger h) c ;;
    Ok (txns, mkHandler p t).

  (** lines 46-49, after a catchup that added the given transactions to the ledger. Before a
      catchup all uncommitted batches have been reverted (ordering_service.py:2186-2209). *)
  Fixpoint catchup_adds (p : pledger B) (bodies : list B) : res (pledger B) :=
    match bodies with
    | [] => Ok p
    | b :: bs => '(_, p', _) <- p_add H B ser_log ser_tree p (mkTxn b None) ;; catchup_adds p' bs
    end.
  Definition on_catchup_finished (h : handler) : res handler :=
    r <- uncommitted_root_hash H B (h_ledger h) ;;
    Ok (mkHandler (h_ledger h) (set_last_committed (h_tracker h) [] r (Z.of_nat (size (p_base (h_ledger h)))))).

  Inductive hop := HApply (body : option B) | HCommit | HReject | HCatchup (bodies : list B).

  Definition hstep (h : handler) (o : hop) : res handler :=
    match o with
    | HApply b => post_batch_applied h b
    | HCommit => '(_, h') <- handler_commit_batch h ;; Ok h'
    | HReject => post_batch_rejected h
    | HCatchup bs => p <- catchup_adds (h_ledger h) bs ;; on_catchup_finished (mkHandler p (h_tracker h))
    end.
  Fixpoint hrun (h : handler) (os : list hop) : res handler :=
    match os with
    | [] => Ok h
    | o :: os' => h' <- hstep h o ;; hrun h' os'
    end.
End Handler.
Arguments mkHandler {B}. Arguments h_ledger {B}. Arguments h_tracker {B}.
Arguments HApply {B}. Arguments HCommit {B}. Arguments HReject {B}. Arguments HCatchup {B}.
