(** Model of plenum/server/catchup/node_leecher_service.py and ledger_leecher_service.py: in which
    order the ledgers of a node are caught up, and up to where. The two services that do the work
    for one ledger are modelled elsewhere (ConsProof_Model.v, Catchup_Model.v); here they are seen
    from outside: they are started, and report [LedgerCatchupStart] and [LedgerCatchupComplete].

    Every nested call below is the last thing its caller does, so handling the messages one after
    the other is the same as handling them within each other. *)
From Coq Require Import List Arith Bool.
From Verif Require Import Base Dict Audit_Model.
Import ListNotations.
Local Open Scope res_scope.

(** constants.py *)
Definition POOL_LEDGER_ID : nat := 0.
Definition CONFIG_LEDGER_ID : nat := 2.

(** utils.py: CatchupTill; [t_hash] None: there is nothing to compare with *)
Record till := mkTill { t_start : nat; t_final : nat; t_hash : option bytes }.

(** What the services read of the rest of the node when an event is handled: the committed audit
    transactions, oldest first (C07: getBySeqNo gives the one at that position), the committed
    content of the ledgers it has, and the frozen ledgers recorded in its config state. *)
Record world := mkWorld { w_audit : list adata; w_own : dict (list bytes); w_frozen : list nat }.

(** ledger_leecher_service.py:32-34 *)
Inductive lstate := not_synced | syncing | synced.
Record leecher := mkLe { le_state : lstate; le_till : option till; le_num : nat }.

(** node_leecher_service.py:21-27 *)
Inductive nstate := Idle | PreSyncingPool | SyncingAudit | SyncingPool | SyncingConfig | SyncingOthers.

(** node_leecher_service.py:50-63. [s_sizes]: a ledger is missing until its LedgerCatchupStart has
    come, the sizes in that message may be None. *)
Record svc := mkSvc { s_state : nstate; s_till : dict till; s_sizes : dict (option (dict nat));
  s_cur : option nat; s_leechers : dict leecher }.

(** What happens outside: the search for a target is started, a ledger's transactions are requested
    ([OContinue]: up to the target its own search has found), the whole catch-up is reported as complete. *)
Inductive out :=
| OConsProof (lid : nat) (request_ledger_statuses : bool)
| OCatchupRep (lid : nat) (t : option till) (sizes : option (dict nat))
| OContinue (lid : nat) (t : option till) (sizes : option (dict nat))
| ONodeComplete.

Section Leecher.
  (** the Merkle root of a ledger with the given content (C01) *)
  Variable root : list bytes -> bytes.

  (** audit_ledger.getBySeqNo(n), None if there is no such transaction *)
  Definition by_seq (A : list adata) (n : nat) : option adata :=
    match n with 0 => None | S i => nth_error A i end.

  (** node_leecher_service.py:186-232 [_calc_catchup_till], the loop over the sizes of the last
      audit transaction [a]; None: the audit ledger is corrupted, return {} *)
  Fixpoint calc_loop (w : world) (a : adata) (sizes : dict nat) (acc : dict till) : option (dict till) :=
    match sizes with
    | [] => Some acc
    | (lid, final_size) :: rest =>
      match get lid (w_own w) with
      | None => calc_loop w a rest acc
      | Some own =>
        match get lid (a_root a) with
        | None =>
          if negb (final_size =? length own) then None
          else calc_loop w a rest (set lid (mkTill (length own) final_size (if 0 <? final_size then Some (root own) else None)) acc)
        | Some (Val h) => calc_loop w a rest (set lid (mkTill (length own) final_size (Some h)) acc)
        | Some (Back n) =>
          match by_seq (w_audit w) (length (w_audit w) - n) with
          | None => None
          | Some a' =>
            match get lid (a_root a') with
            | Some (Val h) => calc_loop w a rest (set lid (mkTill (length own) final_size (Some h)) acc)
            | _ => None
            end
          end
        end
      end
    end.
  Definition calc_catchup_till (w : world) : dict till :=
    match by_seq (w_audit w) (length (w_audit w)) with
    | None => []
    | Some a => match calc_loop w a (a_size a) [] with Some d => d | None => [] end
    end.

  (** lines 234-259 [_calc_nodes_ledger_sizes]; get_payload_data(None) raises *)
  Fixpoint sizes_loop (A : list adata) (lid : nat) (nodes : dict nat) : res (dict nat) :=
    match nodes with
    | [] => Ok []
    | (n, audit_seq_no) :: rest =>
      match by_seq A (Nat.min audit_seq_no (length A)) with
      | None => Err TypeError
      | Some a => r <- sizes_loop A lid rest ;; Ok ((n, get_or lid 0 (a_size a)) :: r)
      end
    end.
  Definition calc_nodes_ledger_sizes (w : world) (s : svc) (lid : nat) : res (dict nat) :=
    match get lid (s_sizes s) with
    | Some (Some r) => Ok r
    | _ =>
      match get AUDIT_LEDGER_ID (s_sizes s) with
      | None => Err KeyError
      | Some None => Ok []
      | Some (Some nodes) => sizes_loop (w_audit w) lid nodes
      end
    end.

  Definition with_leecher (s : svc) (lid : nat) (l : leecher) : svc :=
    mkSvc (s_state s) (s_till s) (s_sizes s) (s_cur s) (set lid l (s_leechers s)).
  Definition with_sizes (s : svc) (lid : nat) (z : option (dict nat)) : svc :=
    mkSvc (s_state s) (s_till s) (set lid z (s_sizes s)) (s_cur s) (s_leechers s).
  Definition with_state (s : svc) (x : nstate) : svc :=
    mkSvc x (s_till s) (s_sizes s) (s_cur s) (s_leechers s).
  Definition with_cur (s : svc) (c : option nat) : svc :=
    mkSvc (s_state s) (s_till s) (s_sizes s) c (s_leechers s).

  (** ledger_leecher_service.py:72-90 [start] and 108-110 [_start_catchup]; the message goes to
      node_leecher_service.py:94-95 [_on_ledger_catchup_start] first *)
  Definition leecher_start (s : svc) (lid : nat) (statuses : bool) (t : option till) (sizes : option (dict nat)) : res (svc * list out) :=
    match get lid (s_leechers s) with
    | None => Err KeyError
    | Some _ =>
      match t with
      | None => Ok (with_leecher s lid (mkLe not_synced None 0), [OConsProof lid statuses])
      | Some t' =>
        let t'' := if t_start t' =? t_final t' then None else Some t' in
        Ok (with_sizes (with_leecher s lid (mkLe syncing (Some t') 0)) lid sizes, [OCatchupRep lid t'' sizes])
      end
    end.

  (** node_leecher_service.py:177-184 [_catchup_ledger] *)
  Definition catchup_ledger (w : world) (s : svc) (lid : nat) : res (svc * list out) :=
    match get lid (s_leechers s) with
    | None => Err KeyError
    | Some _ =>
      match get lid (s_till s) with
      | None => leecher_start s lid true None None
      | Some t => z <- calc_nodes_ledger_sizes w s lid ;; leecher_start s lid true (Some t) (Some z)
      end
    end.

  (** list.remove and list.index, which raise if the element is missing *)
  Fixpoint remove1 (x : nat) (l : list nat) : option (list nat) :=
    match l with [] => None | y :: r => if x =? y then Some r else match remove1 x r with Some r' => Some (y :: r') | None => None end end.
  Fixpoint index_of (x : nat) (l : list nat) : option nat :=
    match l with [] => None | y :: r => if x =? y then Some 0 else option_map S (index_of x r) end.

  (** lines 139-158 [_get_next_ledger] *)
  Definition get_next_ledger (w : world) (s : svc) (lid : option nat) : res (option nat) :=
    match remove1 AUDIT_LEDGER_ID (map fst (s_leechers s)) with
    | None => Err ValueError
    | Some l1 =>
      match remove1 POOL_LEDGER_ID l1 with
      | None => Err ValueError
      | Some l2 =>
        match remove1 CONFIG_LEDGER_ID l2 with
        | None => Err ValueError
        | Some l3 =>
          let ids := fold_left (fun l f => match remove1 f l with Some l' => l' | None => l end) (w_frozen w) l3 in
          match ids with
          | [] => Ok None
          | i0 :: _ =>
            match lid with
            | None => Ok (Some i0)
            | Some x =>
              match index_of x ids with
              | None => Err ValueError
              | Some i => if S i =? length ids then Ok None else Ok (nth_error ids (S i))
              end
            end
          end
        end
      end
    end.

  (** lines 131-137 [_sync_next_ledger] *)
  Definition sync_next_ledger (w : world) (s : svc) : res (svc * list out) :=
    nx <- get_next_ledger w s (s_cur s) ;;
    let s1 := with_cur s nx in
    match nx with
    | Some lid => catchup_ledger w s1 lid
    | None => Ok (with_state s1 Idle, [ONodeComplete])
    end.

  (** lines 29-34 [state_to_ledger] *)
  Definition state_to_ledger (x : nstate) : option nat :=
    match x with
    | PreSyncingPool => Some POOL_LEDGER_ID
    | SyncingAudit => Some AUDIT_LEDGER_ID
    | SyncingPool => Some POOL_LEDGER_ID
    | SyncingConfig => Some CONFIG_LEDGER_ID
    | Idle | SyncingOthers => None
    end.

  (** lines 160-175 [_enter_state] *)
  Definition enter_state (w : world) (s : svc) (x : nstate) : res (svc * list out) :=
    let s1 := with_state s x in
    match x with
    | Idle => Ok (s1, [])
    | PreSyncingPool => leecher_start s1 POOL_LEDGER_ID false None None
    | SyncingOthers => sync_next_ledger w s1
    | _ => match state_to_ledger x with Some lid => catchup_ledger w s1 lid | None => Err KeyError end
    end.

  (** Events: the node starts a catch-up; the search for a ledger's target ends with a
      LedgerCatchupStart; the requested transactions of a ledger are there. *)
  Inductive event :=
  | EStart (is_initial : bool)
  | EProof (lid : nat) (t : option till) (sizes : option (dict nat))
  | EDone (lid : nat) (num : nat).

  (** lines 78-89 [start], with ledger_leecher_service.py:92-95 [reset] *)
  Definition start (w : world) (s : svc) (is_initial : bool) : res (svc * list out) :=
    let s1 := mkSvc (s_state s) [] [] (s_cur s) (map (fun x => (fst x, mkLe not_synced None 0)) (s_leechers s)) in
    enter_state w s1 (if is_initial then PreSyncingPool else SyncingAudit).

  (** lines 117-129 [_validate_catchup_complete] *)
  Definition validate_complete (s : svc) (lid : nat) : bool :=
    match s_state s with
    | SyncingOthers => match s_cur s with Some c => lid =? c | None => false end
    | x => match state_to_ledger x with Some c => lid =? c | None => false end
    end.

  (** lines 97-115 [_on_ledger_catchup_complete] *)
  Definition on_complete (w : world) (s : svc) (lid : nat) : res (svc * list out) :=
    if negb (validate_complete s lid) then Ok (s, [])
    else
      match s_state s with
      | PreSyncingPool => enter_state w s SyncingAudit
      | SyncingAudit => enter_state w (mkSvc (s_state s) (calc_catchup_till w) (s_sizes s) (s_cur s) (s_leechers s)) SyncingPool
      | SyncingPool => enter_state w s SyncingConfig
      | SyncingConfig => enter_state w s SyncingOthers
      | SyncingOthers => sync_next_ledger w s
      | Idle => Ok (s, [])
      end.

  Definition step (w : world) (s : svc) (e : event) : res (svc * list out) :=
    match e with
    | EStart i => start w s i
    | EProof lid t z =>
      (* ledger_leecher_service.py:97-100 [_on_catchup_start] *)
      match get lid (s_leechers s) with
      | None => Err KeyError
      | Some l => Ok (with_sizes (with_leecher s lid (mkLe syncing t (le_num l))) lid z, [OContinue lid t z])
      end
    | EDone lid num =>
      (* ledger_leecher_service.py:102-106 [_on_catchup_complete] *)
      match get lid (s_leechers s) with
      | None => Err KeyError
      | Some _ => on_complete w (with_leecher s lid (mkLe synced None num)) lid
      end
    end.
  Fixpoint run (s : svc) (es : list (event * world)) : res (svc * list out) :=
    match es with
    | [] => Ok (s, [])
    | (e, w) :: rest => r <- step w s e ;; r' <- run (fst r) rest ;; Ok (fst r', snd r ++ snd r')
    end.

  (** lines 49-76 [__init__] and [register_ledger] for each ledger *)
  Definition new_service (lids : list nat) : svc :=
    mkSvc Idle [] [] None (fold_left (fun d l => set l (mkLe not_synced None 0) d) lids []).
  (** lines 91-92 *)
  Definition num_txns_caught_up (s : svc) : nat := fold_right (fun x n => le_num (snd x) + n) 0 (s_leechers s).
End Leecher.
