(** Model of plenum/server/batch_handlers/audit_batch_handler.py: the audit transaction written
    for every batch, and of the places that read values back from the audit ledger. *)
From Coq Require Import List Arith NArith ZArith Bool.
From Verif Require Import Base Dict Merkle_Model Ledger_Model Tracker_Model.
Import ListNotations.
Local Open Scope res_scope.

(** constants.py: AUDIT_LEDGER_ID *)
Definition AUDIT_LEDGER_ID : nat := 3.

(** A field that holds a value or, as an int, how many transactions to go back for it. *)
Inductive fld (V : Type) := Val (v : V) | Back (n : nat).
Arguments Val {V} v. Arguments Back {V} n.

(** The payload of an audit transaction, audit_batch_handler.py:86-95. [a_prim] and [a_reg] are
    None if the field is missing or None. Node names are numbers. TXN_VERSION is left out. *)
Record adata := mkA
  { a_view : nat; a_seq : nat; a_size : dict nat; a_root : dict (fld bytes); a_state : dict bytes;
    a_prim : option (fld (list nat)); a_reg : option (fld (list nat)); a_digest : nat }.

(** three_pc_batch.py:7-22, the fields read here *)
Record batch := mkBatch
  { b_ledger : nat; b_view : nat; b_orig : option nat; b_seq : nat; b_digest : nat;
    b_prim : option (list nat); b_reg : option (list nat); b_audit : bool }.

(** What the handler sees of the rest of the node: each registered ledger's uncommitted content
    (all its transactions, committed or not), the length of its [uncommittedTxns], the head of
    its state (None: there is no state), and the frozen ledgers with their recorded sizes. *)
Record lview := mkLV { lv_txns : list bytes; lv_unc : nat; lv_state : option bytes }.
Record env := mkEnv { e_ledgers : dict lview; e_frozen : dict nat }.

Section Audit.
  (** the Merkle root of a ledger with the given content (C01) *)
  Variable root : list bytes -> bytes.

  Definition lv_size (v : lview) : nat := length (lv_txns v).

  (** lines 123-125, 128-130, 133-136, 139-143: the ledger's roots are written *)
  Definition write_roots (lid : nat) (v : lview) (a : adata) : res adata :=
    match lv_state v with
    | None => Err AttributeError
    | Some h => Ok (mkA (a_view a) (a_seq a) (a_size a) (set lid (Val (root (lv_txns v))) (a_root a))
                      (set lid h (a_state a)) (a_prim a) (a_reg a) (a_digest a))
    end.
  Definition set_root (lid : nat) (x : fld bytes) (a : adata) : adata :=
    mkA (a_view a) (a_seq a) (a_size a) (set lid x (a_root a)) (a_state a) (a_prim a) (a_reg a) (a_digest a).
  Definition set_size (lid n : nat) (a : adata) : adata :=
    mkA (a_view a) (a_seq a) (set lid n (a_size a)) (a_root a) (a_state a) (a_prim a) (a_reg a) (a_digest a).
  Definition set_state (lid : nat) (h : bytes) (a : adata) : adata :=
    mkA (a_view a) (a_seq a) (a_size a) (a_root a) (set lid h (a_state a)) (a_prim a) (a_reg a) (a_digest a).

  (** lines 120-155 [_fill_ledger_root_hash] *)
  Definition fill_ledger_root_hash (lid : nat) (v : lview) (last : option adata) (b : batch) (a : adata) : res adata :=
    if lid =? b_ledger b then write_roots lid v a
    else
      match last with
      | None => if negb (lv_size v =? 0) then write_roots lid v a else Ok a
      | Some l =>
        match get lid (a_size l) with
        | None =>
          if negb (lv_unc v =? 0) then write_roots lid v a
          else match get lid (a_root l) with
               | None => Ok a
               | Some (Back n) => Ok (set_root lid (Back (n + 1)) a)
               | Some (Val _) => Ok (set_root lid (Back 1) a)
               end
        | Some n0 =>
          if n0 <? lv_size v then write_roots lid v a
          else match get lid (a_root l) with
               | None => Ok a
               | Some (Back n) => Ok (set_root lid (Back (n + 1)) a)
               | Some (Val _) => Ok (set_root lid (Back 1) a)
               end
        end
      end.

  (** lines 97-108, the loop over the ledgers that are neither the audit ledger nor frozen *)
  Fixpoint fill_ledgers (ls : dict lview) (frozen : dict nat) (last : option adata) (b : batch) (a : adata) : res adata :=
    match ls with
    | [] => Ok a
    | (lid, v) :: rest =>
      if (lid =? AUDIT_LEDGER_ID) || (if get lid frozen then true else false) then fill_ledgers rest frozen last b a
      else
        a' <- fill_ledger_root_hash lid v last b (set_size lid (lv_size v) a) ;;
        fill_ledgers rest frozen last b a'
    end.

  (** lines 233-245 [_fill_frozen_ledgers] *)
  Definition fill_frozen (last : option adata) (frozen : dict nat) (a : adata) : adata :=
    match last with
    | None => a
    | Some l =>
      fold_left (fun a '(lid, seq_no) =>
        match get lid (a_root l) with
        | Some (Back n) =>
          let a := set_root lid (Back (n + 1)) (set_size lid seq_no a) in
          match get lid (a_state l) with Some h => set_state lid h a | None => a end
        | _ => a
        end) frozen a
    end.

  (** lines 157-194 [_fill_primaries] and 196-231 [_fill_node_reg]: the new value of a field that
      repeats. [last_seq] is the sequence number in the last transaction, [lookup] is
      ledger.get_by_seq_no_uncommitted followed by get_payload_data. *)
  Definition names_eq_dec : forall x y : list nat, {x = y} + {x <> y} := list_eq_dec Nat.eq_dec.

  Definition fill_primaries (last : option (option nat * adata)) (unc_size : nat) (lookup : nat -> res adata)
      (cur : option (list nat)) : res (option (fld (list nat))) :=
    match last with
    | None => Ok (option_map Val cur)
    | Some (last_seq, l) =>
      match a_prim l with
      | Some (Val ps) =>
        match cur with
        | Some c => Ok (Some (if names_eq_dec ps c then Back 1 else Val c))
        | None => Ok None
        end
      | Some (Back n) =>
        if n <? unc_size then
          match last_seq with
          | None => Err TypeError
          | Some s =>
            a <- lookup (s - n) ;;
            match a_prim a with
            | Some (Val ps) =>
              match cur with
              | Some c => Ok (Some (if names_eq_dec ps c then Back (n + 1) else Val c))
              | None => Ok None
              end
            | _ => Err LogicError
            end
          end
        else Err LogicError
      | None => Err LogicError
      end
    end.

  Definition fill_node_reg (last : option (option nat * adata)) (unc_size : nat) (lookup : nat -> res adata)
      (cur : option (list nat)) : res (option (fld (list nat))) :=
    match cur with
    | None => Ok None
    | Some c =>
      match last with
      | None => Ok (Some (Val c))
      | Some (last_seq, l) =>
        match a_reg l with
        | None => Ok (Some (Val c))
        | Some (Val ps) => Ok (Some (if names_eq_dec ps c then Back 1 else Val c))
        | Some (Back n) =>
          if n <? unc_size then
            match last_seq with
            | None => Err TypeError
            | Some s =>
              a <- lookup (s - n) ;;
              match a_reg a with
              | Some (Val ps) => Ok (Some (if names_eq_dec ps c then Back (n + 1) else Val c))
              | _ => Err LogicError
              end
            end
          else Ok None
        end
      end
    end.

  (** lines 83-118 [_create_audit_txn_data] *)
  Definition create (last : option (option nat * adata)) (unc_size : nat) (lookup : nat -> res adata)
      (e : env) (b : batch) : res adata :=
    let view_no := match b_orig b with Some v => v | None => b_view b end in
    let a0 := mkA view_no (b_seq b) [] [] [] None None (b_digest b) in
    let l := option_map snd last in
    a1 <- fill_ledgers (e_ledgers e) (e_frozen e) l b a0 ;;
    let a2 := fill_frozen l (e_frozen e) a1 in
    ps <- fill_primaries last unc_size lookup (b_prim b) ;;
    reg <- fill_node_reg last unc_size lookup (b_reg b) ;;
    Ok (mkA (a_view a2) (a_seq a2) (a_size a2) (a_root a2) (a_state a2) ps reg (a_digest a2)).

  (** ** On the audit ledger *)
  Variable H : bytes -> bytes.
  Variable ser_log : txn adata -> bytes.
  Variable deser_log : bytes -> txn adata.
  Variable ser_tree : txn adata -> bytes.

  Notation handler := (handler adata).

  (** get_payload_data of what a lookup returned *)
  Definition payload (x : res (option (txn adata))) : res adata :=
    o <- x ;; match o with Some t => Ok (t_body t) | None => Err TypeError end.

  Definition create_on (p : pledger adata) (e : env) (b : batch) : res adata :=
    o <- get_last_txn adata deser_log p ;;
    create (option_map (fun t => (t_seq t, t_body t)) o) (uncommitted_size p)
      (fun n => payload (get_by_seq_no_uncommitted adata deser_log p n)) e b.

  (** ** Histories: [AApply] = post_batch_applied (lines 27-31, 65-81), [ACommit] = commit_batch,
      [AReject] = post_batch_rejected, and [ACatchup] = one audit transaction received in a
      catch-up followed by on_catchup_finished (46-49). What is received is what the sender's
      handler, running the same code on the same ledger, created for its batch. A catch-up of
      several transactions is a sequence of these. *)
  Inductive aop := AApply (e : env) (b : batch) | ACommit | AReject | ACatchup (e : env) (b : batch).

  Definition astep (h : handler) (o : aop) : res handler :=
    match o with
    | AApply e b =>
      if b_audit b then
        a <- create_on (h_ledger h) e b ;; hstep H adata ser_log ser_tree h (HApply (Some a))
      else hstep H adata ser_log ser_tree h (HApply None)
    | ACommit => hstep H adata ser_log ser_tree h HCommit
    | AReject => hstep H adata ser_log ser_tree h HReject
    | ACatchup e b => a <- create_on (h_ledger h) e b ;; hstep H adata ser_log ser_tree h (HCatchup [a])
    end.
  Fixpoint arun (h : handler) (os : list aop) : res handler :=
    match os with
    | [] => Ok h
    | o :: os' => h' <- astep h o ;; arun h' os'
    end.

  (** ** Readers *)

  (** node.py:1875-1884 [_get_last_audited_primaries]; None for a missing value *)
  Definition last_audited_primaries (p : pledger adata) : res (option (list nat)) :=
    o <- get_last_committed_txn adata deser_log p ;;
    match o with
    | None => Err TypeError
    | Some t =>
      match a_prim (t_body t) with
      | None => Ok None
      | Some (Val ps) => Ok (Some ps)
      | Some (Back n) =>
        match t_seq t with
        | None => Err TypeError
        | Some s =>
          a <- payload (getBySeqNo adata deser_log (p_base p) (s - n)) ;;
          match a_prim a with Some (Val ps) => Ok (Some ps) | _ => Ok None end
        end
      end
    end.

  (** ordering_service.py:1580-1599 [_get_from_audit_for_ordered] on a master; [v] is
      get_original_viewno(pp), [fd] the field *)
  Fixpoint get_from_audit (fd : adata -> option (fld (list nat))) (p : pledger adata) (txns : list (txn adata)) (v s : nat)
    : res (option (list nat)) :=
    match txns with
    | [] => Ok None
    | t :: rest =>
      if (s =? a_seq (t_body t)) && (v =? a_view (t_body t)) then
        match fd (t_body t) with
        | None => Ok None
        | Some (Val ps) => Ok (Some ps)
        | Some (Back n) =>
          match t_seq t with
          | None => Err TypeError
          | Some k =>
            a <- payload (get_by_seq_no_uncommitted adata deser_log p (k - n)) ;;
            match fd a with Some (Val ps) => Ok (Some ps) | _ => Ok None end
          end
        end
      else get_from_audit fd p rest v s
    end.
  Definition get_from_audit_for_ordered (fd : adata -> option (fld (list nat))) (p : pledger adata) (v s : nat) :=
    get_from_audit fd p (p_unc p) v s.

  (** ledgers_freeze_handler.py:72-91 [_load_hash_roots_from_audit_ledger], the ledger root and
      the size (the state root of line 74 is None unless the last transaction has it) *)
  Definition load_hash_roots (p : pledger adata) (lid : nat) : res (option bytes * option bytes * option nat) :=
    o <- get_last_committed_txn adata deser_log p ;;
    match o with
    | None => Err TypeError
    | Some t =>
      let st := get lid (a_state (t_body t)) in
      let n := get lid (a_size (t_body t)) in
      match get lid (a_root (t_body t)) with
      | None => Ok (None, st, n)
      | Some (Val r) => Ok (Some r, st, n)
      | Some (Back k) =>
        match t_seq t with
        | None => Err TypeError
        | Some s =>
          a <- payload (getBySeqNo adata deser_log (p_base p) (s - k)) ;;
          Ok (match get lid (a_root a) with Some (Val r) => Some r | _ => None end, st, n)
        end
      end
    end.
End Audit.
