(** Model of the freezing of ledgers: plenum/server/request_handlers/ledgers_freeze/*.py, the refusal of writes
    in write_request_handler.py, and the audit transactions written meanwhile (Audit_Model).

    That ledgers and states behave as lists of applied batches of which a prefix is committed and a suffix can be
    taken back is C08, C14 and C40; here a node is such a list. *)
From Coq Require Import List Arith NArith Bool.
From Verif Require Import Base Dict Merkle_Model Ledger_Model Tracker_Model Audit_Model.
Import ListNotations.
Local Open Scope res_scope.

Definition CONFIG_LEDGER_ID : nat := 2.
(** constants.py:277 VALID_LEDGER_IDS *)
Definition is_valid_id (lid : nat) : bool := existsb (Nat.eqb lid) [0; 1; 2; 3].

(** ledger_freeze_helper.py:29-33, what is recorded of a frozen ledger: ledger root, state root, size *)
Definition info := (option bytes * option bytes * option nat)%type.
Definition seq_no (i : info) : option nat := snd i.

(** A write request: of any kind but freezing, as the transaction it makes, or one to freeze ledgers, with
    whether its sender is a trustee in the uncommitted domain state. *)
Inductive request := Txn (t : bytes) | Freeze (trustee : bool) (lids : list nat).

(** The node after a batch: the uncommitted ledgers (all but the audit ledger), the frozen ledgers in the config
    state, the audit transaction of the batch. *)
Record snap := mkSnap { ledgers : dict (list bytes); frozen : dict info; audit : adata }.
(** The applied batches, newest first; the first [pending] of them are not committed.  [genesis]: the ledgers
    before the first batch (nothing is frozen). *)
Record node := mkNode { genesis : dict (list bytes); stack : list snap; pending : nat }.

Definition committed (s : node) : list snap := skipn (pending s) (stack s).
Definition ledgers_of (g : dict (list bytes)) (l : list snap) : dict (list bytes) := match l with x :: _ => ledgers x | [] => g end.
Definition frozen_of (l : list snap) : dict info := match l with x :: _ => frozen x | [] => [] end.

Section Freeze.
  (** the Merkle root of a ledger (C01), and the head of the state of a ledger (C11) *)
  Variable root : list bytes -> bytes.
  Variable head : nat -> list bytes -> bytes.

  (** ledgers_freeze_handler.py:72-91 [_load_hash_roots_from_audit_ledger], on the committed audit transactions,
      newest first.  No audit transaction has a number for a state root (audit_batch_handler.py:120-155), so
      85-88 is never reached.  get_payload_data of no transaction is an error (73).  A number found in the place of a root would be returned as it is (here: None). *)
  Definition load (C : list adata) (lid : nat) : res info :=
    match C with
    | [] => Err TypeError
    | a :: _ =>
      let st := get lid (a_state a) in
      let n := get lid (a_size a) in
      match get lid (a_root a) with
      | None => Ok (None, st, n)
      | Some (Val r) => Ok (Some r, st, n)
      | Some (Back k) =>
        match nth_error C k with
        | None => Err TypeError
        | Some a' => Ok (match get lid (a_root a') with Some (Val r) => Some r | _ => None end, st, n)
        end
      end
    end.

  (** 54-70 [make_frozen_ledgers_list] *)
  Fixpoint make_list (C : list adata) (lids : list nat) (fr : dict info) : res (dict info) :=
    match lids with
    | [] => Ok fr
    | lid :: rest =>
      match get lid fr with
      | Some _ => make_list C rest fr
      | None => i <- load C lid ;; make_list C rest (set lid i fr)
      end
    end.

  (** 21-43 [static_validation], [authorize], [additional_dynamic_validation]; an empty audit ledger is false in
      Python (ledger/ledger.py:189) *)
  Definition may_freeze (C : list adata) (trustee : bool) (lids : list nat) : bool :=
    negb (existsb is_valid_id lids) && trustee &&
    match C with
    | [] => true
    | a :: _ => forallb (fun lid => match get lid (a_size a) with Some _ => true | None => false end) lids
    end.

  (** write_request_handler.py:114-121 [_validate_ledger_is_not_frozen] *)
  Definition not_frozen (lid : nat) (fr : dict info) : bool :=
    is_valid_id lid || match get lid fr with Some _ => false | None => true end.

  (** a transaction to freeze, as it is stored (simplified: the numbers) *)
  Definition freeze_txn (lids : list nat) : bytes := map N.of_nat lids.

  (** write_request_handler.py:34-62 [dynamic_validation] and [apply_request], in a batch on ledger [lid]; a
      request that is refused is left out.  Only a batch on the config ledger has requests to freeze. *)
  Definition apply_req (C : list adata) (lid : nat) (q : request) (x : dict (list bytes) * dict info)
    : res (dict (list bytes) * dict info) :=
    let '(ls, fr) := x in
    if negb (not_frozen lid fr) then Ok (ls, fr)
    else
      let add t := match get lid ls with Some txns => set lid (txns ++ [t]) ls | None => ls end in
      match q with
      | Txn t => Ok (add t, fr)
      | Freeze trustee lids =>
        if (lid =? CONFIG_LEDGER_ID) && may_freeze C trustee lids then
          fr' <- make_list C lids fr ;; Ok (add (freeze_txn lids), fr')
        else Ok (ls, fr)
      end.
  Fixpoint apply_reqs (C : list adata) (lid : nat) (qs : list request) (x : dict (list bytes) * dict info)
    : res (dict (list bytes) * dict info) :=
    match qs with
    | [] => Ok x
    | q :: rest => x' <- apply_req C lid q x ;; apply_reqs C lid rest x'
    end.

  (** what the audit handler sees (Audit_Model.env): the ledgers, with how many of their transactions are not
      committed, and the frozen ledgers of the committed config state *)
  Definition view (s : node) (ls : dict (list bytes)) : env :=
    mkEnv (map (fun '(lid, txns) =>
             (lid, mkLV txns (length txns - length (get_or lid [] (ledgers_of (genesis s) (committed s))))
                     (Some (head lid txns)))) ls)
      (map (fun '(lid, i) => (lid, match seq_no i with Some n => n | None => 0 end)) (frozen_of (committed s))).
  Definition on_ledger (lid : nat) : batch := mkBatch lid 0 None 0 0 None None true.
  (** audit_batch_handler.py:83-118 [_create_audit_txn_data], the part on ledgers.  (A recorded size that is None
      would be written as None, here as 0; no batch that was validated records one.) *)
  Definition make_audit (s : node) (ls : dict (list bytes)) (lid : nat) : res adata :=
    let last := option_map audit (hd_error (stack s)) in
    let e := view s ls in
    a <- fill_ledgers root (e_ledgers e) (e_frozen e) last (on_ledger lid) (mkA 0 0 [] [] [] None None 0) ;;
    Ok (fill_frozen last (e_frozen e) a).

  Inductive op := Apply (lid : nat) (qs : list request) | Commit | Reject.
  Definition step (s : node) (o : op) : res node :=
    match o with
    | Apply lid qs =>
      x <- apply_reqs (map audit (committed s)) lid qs (ledgers_of (genesis s) (stack s), frozen_of (stack s)) ;;
      let '(ls, fr) := x in
      a <- make_audit s ls lid ;;
      Ok (mkNode (genesis s) (mkSnap ls fr a :: stack s) (S (pending s)))
    | Commit => match pending s with 0 => Err LogicError | S n => Ok (mkNode (genesis s) (stack s) n) end
    | Reject => match pending s, stack s with S n, _ :: l => Ok (mkNode (genesis s) l n) | _, _ => Err LogicError end
    end.
  Fixpoint run (s : node) (os : list op) : res node :=
    match os with
    | [] => Ok s
    | o :: rest => s' <- step s o ;; run s' rest
    end.
  Definition start (g : dict (list bytes)) : node := mkNode g [] 0.

  (** A node that catches up gets the audit ledger first (C55), and then applies the transactions of the config
      ledger one after the other: [update_state] for each transaction to freeze (44-52), without validation. *)
  Fixpoint replay (C : list adata) (freezes : list (list nat)) (fr : dict info) : res (dict info) :=
    match freezes with
    | [] => Ok fr
    | lids :: rest => fr' <- make_list C lids fr ;; replay C rest fr'
    end.
End Freeze.
