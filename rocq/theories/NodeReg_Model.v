(** Model of plenum/server/batch_handlers/node_reg_handler.py: the registry of validators, kept
    while batches are applied, rejected and committed, and reloaded from the ledgers. *)
From Coq Require Import List Arith NArith ZArith Bool.
From Verif Require Import Base Dict Merkle_Model Ledger_Model Audit_Model.
Import ListNotations.
Local Open Scope res_scope.

(** constants.py: POOL_LEDGER_ID *)
Definition POOL_LEDGER_ID : nat := 0.

(** sortedcontainers.SortedDict: association lists in increasing order of keys *)
Fixpoint sset {V} (k : nat) (v : V) (d : dict V) : dict V :=
  match d with
  | [] => [(k, v)]
  | (k', v') :: d' => if k =? k' then (k, v) :: d' else if k <? k' then (k, v) :: d else (k', v') :: sset k v d'
  end.
(** the index of a key among the keys *)
Fixpoint sindex {V} (k : nat) (d : dict V) : option nat :=
  match d with [] => None | (k', _) :: d' => if k =? k' then Some 0 else option_map S (sindex k d') end.

(** A NODE operation: the alias, and whether VALIDATOR is in the services; None if it has no
    services. *)
Record nodeop := mkNop { no_name : nat; no_validator : option bool }.

(** [list.remove]: the first occurrence goes *)
Fixpoint remove_first (x : nat) (l : list nat) : list nat :=
  match l with [] => [] | y :: l' => if x =? y then l' else y :: remove_first x l' end.

(** lines 175-193 [apply_request] on the list, and lines 275-285 of
    [__load_node_reg_from_pool_ledger], which are the same *)
Definition reg_update (reg : list nat) (o : nodeop) : list nat :=
  match no_validator o with
  | None => reg
  | Some validator =>
    if negb (existsb (Nat.eqb (no_name o)) reg) && validator then reg ++ [no_name o]
    else if existsb (Nat.eqb (no_name o)) reg && negb validator then remove_first (no_name o) reg
    else reg
  end.

(** Python lists are objects: [n_heap] holds the registries that can be changed in place, a
    registry is an index into it. Registries that are copied and then only read (the two dicts,
    the batch) are kept as values. [n_votes]: the VoteForViewChange messages sent on the bus. *)
Record nreg := mkN
  { n_heap : list (list nat); n_unc : nat; n_com : nat;
    n_cbov : dict (list nat); n_ubov : dict (list nat);
    n_queue : list (nat * nat); n_uview : nat; n_cview : nat; n_votes : list nat }.

Definition deref (s : nreg) (r : nat) : list nat := nth r (n_heap s) [].
Definition uncommitted_node_reg (s : nreg) : list nat := deref s (n_unc s).
Definition committed_node_reg (s : nreg) : list nat := deref s (n_com s).

(** lines 27-46 [__init__] *)
Definition new_nreg : nreg := mkN [[]; []] 0 1 [] [] [] 0 0 [].

Fixpoint upd {V} (i : nat) (x : V) (l : list V) : list V :=
  match l, i with [] , _ => [] | _ :: l', 0 => x :: l' | y :: l', S i' => y :: upd i' x l' end.

(** lines 175-193: the list that [uncommitted_node_reg] refers to is changed in place *)
Definition apply_request (s : nreg) (o : nodeop) : nreg :=
  mkN (upd (n_unc s) (reg_update (uncommitted_node_reg s) o) (n_heap s)) (n_unc s) (n_com s) (n_cbov s) (n_ubov s)
      (n_queue s) (n_uview s) (n_cview s) (n_votes s).

(** line 74 and 122: the view a batch belongs to *)
Definition batch_view (view : nat) (orig : option nat) : nat := match orig with None => view | Some v => v end.

(** lines 69-98 [post_batch_applied]; [reported] is three_pc_batch.node_reg before the call. Also
    returns the new three_pc_batch.node_reg. *)
Definition post_batch_applied (s : nreg) (view : nat) (orig : option nat) (reported : option (list nat)) : nreg * list nat :=
  (* 71-72 *)
  let s1 := match uncommitted_node_reg s, reported with
            | [], Some (x :: l) => mkN (n_heap s ++ [x :: l]) (length (n_heap s)) (n_com s) (n_cbov s) (n_ubov s) (n_queue s) (n_uview s) (n_cview s) (n_votes s)
            | _, _ => s
            end in
  let view_no := batch_view view orig in
  (* 77-81 *)
  let s2 := if n_uview s1 <? view_no then
              let r := match rev (n_queue s1) with (r, _) :: _ => deref s1 r | [] => committed_node_reg s1 end in
              mkN (n_heap s1) (n_unc s1) (n_com s1) (n_cbov s1) (sset view_no r (n_ubov s1)) (n_queue s1) view_no (n_cview s1) (n_votes s1)
            else s1 in
  (* 83-85 *)
  let reg := uncommitted_node_reg s2 in
  (mkN (n_heap s2 ++ [reg]) (n_unc s2) (n_com s2) (n_cbov s2) (n_ubov s2) (n_queue s2 ++ [(length (n_heap s2), view_no)])
       (n_uview s2) (n_cview s2) (n_votes s2), reg).

(** lines 99-120 [post_batch_rejected] *)
Definition post_batch_rejected (s : nreg) : res nreg :=
  match rev (n_queue s) with
  | [] => Err IndexError
  | (_, rview) :: rest =>
    let q := rev rest in
    let s1 := match rest with
              | [] => mkN (n_heap s ++ [committed_node_reg s]) (length (n_heap s)) (n_com s) (n_cbov s) (n_ubov s) q (n_cview s) (n_cview s) (n_votes s)
              | (r, v) :: _ => mkN (n_heap s) r (n_com s) (n_cbov s) (n_ubov s) q v (n_cview s) (n_votes s)
              end in
    if n_uview s1 <? rview then
      match get rview (n_ubov s1) with
      | None => Err KeyError
      | Some _ => Ok (mkN (n_heap s1) (n_unc s1) (n_com s1) (n_cbov s1) (del rview (n_ubov s1)) (n_queue s1) (n_uview s1) (n_cview s1) (n_votes s1))
      end
    else Ok s1
  end.

(** lines 163-173 [_gc_node_reg_at_beginning_of_view] *)
Definition gc (cview : nat) (d : dict (list nat)) : dict (list nat) :=
  match sindex cview d with None => d | Some i => skipn (i - 1) d end.

(** lines 122-161 [commit_batch]. With an empty deque popleft raises. *)
Definition commit_batch (s : nreg) (view : nat) (orig : option nat) : res nreg :=
  let view_no := batch_view view orig in
  let s1 := if n_cview s <? view_no then
              mkN (n_heap s) (n_unc s) (n_com s) (gc view_no (sset view_no (committed_node_reg s) (n_cbov s)))
                  (gc view_no (n_ubov s)) (n_queue s) (n_uview s) view_no (n_votes s)
            else s in
  match n_queue s1 with
  | [] => Err IndexError
  | (r, _) :: q =>
    let votes := if length (committed_node_reg s1) =? length (deref s1 r) then n_votes s1 else n_votes s1 ++ [view_no + 1] in
    Ok (mkN (n_heap s1) (n_unc s1) r (n_cbov s1) (n_ubov s1) q (n_uview s1) (n_cview s1) votes)
  end.

(** lines 50-54 [active_node_reg] *)
Definition active_node_reg (s : nreg) : list nat :=
  match rev (n_ubov s) with [] => [] | (_, l) :: _ => l end.

(** ** Histories of the handler *)
Inductive nop := NReq (o : nodeop) | NApplied (view : nat) (orig : option nat) (reported : option (list nat))
               | NRejected | NCommit (view : nat) (orig : option nat).

(** the new state and, for an applied batch, the registry written into it *)
Definition nstep (s : nreg) (o : nop) : res (nreg * option (list nat)) :=
  match o with
  | NReq q => Ok (apply_request s q, None)
  | NApplied v orig rep => let '(s', reg) := post_batch_applied s v orig rep in Ok (s', Some reg)
  | NRejected => s' <- post_batch_rejected s ;; Ok (s', None)
  | NCommit v orig => s' <- commit_batch s v orig ;; Ok (s', None)
  end.
Fixpoint nrun (s : nreg) (os : list nop) : res (nreg * list (list nat)) :=
  match os with
  | [] => Ok (s, [])
  | o :: os' =>
    r <- nstep s o ;;
    r' <- nrun (fst r) os' ;;
    Ok (fst r', match snd r with Some reg => reg :: snd r' | None => snd r' end)
  end.

(** ** Reloading, lines 56-67 and 206-372 *)
Section Load.
  Variable deser_log : bytes -> txn adata.
  Notation ledger := (pledger adata).

  (** the pool ledger: None for a transaction that is not a NODE transaction *)
  Definition pool := list (option nodeop).

  (** lines 264-286 [__load_node_reg_from_pool_ledger]; ledger.getAllTxn(to=to) are the first [to]
      transactions (C51_get_all) *)
  Definition load_node_reg_from_pool_ledger (txns : pool) : list nat :=
    fold_left (fun reg t => match t with Some o => reg_update reg o | None => reg end) txns [].

  (** lines 368-372 [__load_node_reg_for_first_audit_txn] *)
  Definition load_node_reg_for_first_audit_txn (txns : pool) (a : adata) : res (list nat) :=
    match get POOL_LEDGER_ID (a_size a) with
    | None => Err KeyError
    | Some n => Ok (load_node_reg_from_pool_ledger (firstn n txns))
    end.

  (** get_seq_no *)
  Definition seq_of (t : txn adata) : res nat := match t_seq t with Some n => Ok n | None => Err TypeError end.
  Definition fetch (p : ledger) (n : nat) : res (txn adata) :=
    o <- getBySeqNo adata deser_log (p_base p) n ;; match o with Some t => Ok t | None => Err TypeError end.
  (** [list(node_reg)] *)
  Definition as_list (f : fld (list nat)) : res (list nat) := match f with Val l => Ok l | Back _ => Err TypeError end.

  (** lines 289-309 [__load_current_node_reg_from_audit_ledger]; [not audit_ledger] is true of an
      empty ledger. The result is turned into a list by the caller. *)
  Definition load_current_node_reg_from_audit_ledger (p : ledger) : res (option (fld (list nat))) :=
    if size (p_base p) =? 0 then Ok None
    else
      o <- get_last_committed_txn adata deser_log p ;;
      match o with
      | None => Err TypeError
      | Some t =>
        match a_reg (t_body t) with
        | None => Ok None
        | Some (Val l) => Ok (Some (Val l))
        | Some (Back n) => s <- seq_of t ;; t' <- fetch p (s - n) ;; Ok (a_reg (t_body t'))
        end
      end.

  (** lines 206-211 [_load_current_node_reg] *)
  Definition load_current_node_reg (txns : pool) (p : ledger) : res (list nat) :=
    o <- load_current_node_reg_from_audit_ledger p ;;
    match o with None => Ok (load_node_reg_from_pool_ledger txns) | Some f => as_list f end.

  (** lines 311-327 [__load_node_reg_from_audit_txn] *)
  Definition load_node_reg_from_audit_txn (txns : pool) (p : ledger) (t : txn adata) : res (list nat) :=
    match a_reg (t_body t) with
    | None => load_node_reg_for_first_audit_txn txns (t_body t)
    | Some (Val l) => Ok l
    | Some (Back n) =>
      s <- seq_of t ;; t' <- fetch p (s - n) ;;
      match a_reg (t_body t') with
      | None => load_node_reg_for_first_audit_txn txns (t_body t)
      | Some f => as_list f
      end
    end.

  (** lines 329-366 [__get_first_txn_in_view_from_audit], the loop; each round ends at a smaller
      sequence number, so the ledger's size bounds the rounds *)
  Fixpoint first_txn_loop (fuel : nat) (p : ledger) (view : nat) (t : txn adata) : res (txn adata * option (txn adata)) :=
    match fuel with
    | 0 => Err OutOfFuel
    | S fuel' =>
      t1 <- match a_prim (t_body t) with
            | Some (Back n) => s <- seq_of t ;; fetch p (s - n)
            | _ => Ok t
            end ;;
      s1 <- seq_of t1 ;;
      if s1 <=? 1 then Ok (t1, None)
      else
        t0 <- fetch p (s1 - 1) ;;
        if view =? a_view (t_body t0) then first_txn_loop fuel' p view t0
        else Ok (t1, Some t0)
    end.
  Definition get_first_txn_in_view (p : ledger) (t : txn adata) : res (txn adata * option (txn adata)) :=
    first_txn_loop (S (size (p_base p))) p (a_view (t_body t)) t.

  (** lines 213-262 [_load_last_view_node_reg]: the view and the registries at the beginning of
      views; [cur] is what [_load_current_node_reg] found *)
  Definition load_last_view_node_reg (txns : pool) (p : ledger) (cur : list nat) : res (nat * dict (list nat)) :=
    if size (p_base p) =? 0 then Ok (0, [(0, cur)])
    else
      o <- get_last_committed_txn adata deser_log p ;;
      match o with
      | None => Err TypeError
      | Some t =>
        r <- get_first_txn_in_view p t ;;
        let '(first_this, last_prev) := r in
        let view := a_view (t_body first_this) in
        match last_prev with
        | None =>
          reg <- load_node_reg_for_first_audit_txn txns (t_body first_this) ;;
          if view =? 0 then Ok (view, [(view, reg)]) else Ok (view, sset 0 reg [(view, reg)])
        | Some lp =>
          reg <- load_node_reg_from_audit_txn txns p lp ;;
          if view =? 0 then Ok (view, [(view, reg)])
          else
            r2 <- get_first_txn_in_view p lp ;;
            let '(first_last, last_pre) := r2 in
            reg2 <- match last_pre with
                    | None => load_node_reg_for_first_audit_txn txns (t_body first_last)
                    | Some lpp => load_node_reg_from_audit_txn txns p lpp
                    end ;;
            Ok (view, sset (a_view (t_body first_last)) reg2 [(view, reg)])
        end
      end.

  (** lines 56-67 [on_catchup_finished] *)
  Definition on_catchup_finished (s : nreg) (txns : pool) (p : ledger) : res nreg :=
    cur <- load_current_node_reg txns p ;;
    r <- load_last_view_node_reg txns p cur ;;
    let '(view, bov) := r in
    Ok (mkN (n_heap s ++ [cur; cur]) (length (n_heap s)) (S (length (n_heap s))) bov bov (n_queue s) view view (n_votes s)).
End Load.
