(** Model of the numbering of batches in backup instances over restarts, catch-ups and view changes:
    plenum/server/last_sent_pp_store_helper.py with its callers in node.py, ordering_service.py, replica.py and
    view_change_service.py. *)
From Coq Require Import List Arith Bool.
From Verif Require Import Base Dict.
Import ListNotations.

(** A backup instance: whether this node is its primary (None: no primary is known), waiting_for_new_view,
    master_reordered_after_vc, lastPrePrepareSeqNo, last_ordered_3pc.  prev_view_prepare_cert is 0 in backups
    (only view_change_service.py:317 sets it, in the master). *)
Record rep := mkRep { prim : option bool; waiting : bool; reordered : bool; last_pp : nat; last_ord : nat * nat }.
(** A new instance: replicas.py:add_replica; consensus_shared_data.py:30-96. *)
Definition fresh : rep := mkRep None false true 0 (0, 0).

(** The node: viewNo, previous_view_no, the view in the last transaction of the audit ledger (on disk),
    LAST_SENT_PRE_PREPARE in nodeStatusDB (on disk; what was put is what is read), the backup instances, whether the
    node participates.  [target], the view of the view change under way, is not in the code: it tells which NewView
    may still be accepted. *)
Record node := mkNode { view : nat; prev : option nat; audit : option nat; store : option (dict (nat * nat));
  reps : dict rep; part : bool; target : option nat }.

Inductive event := Sent (i v n : nat) | Ordered (i v n : nat).

Inductive op :=
  | Send (i : nat)                 (* the primary of instance i is asked to send a batch *)
  | Recv (i n : nat)               (* a PrePrepare of the present view is accepted (which ones: C18, C29) *)
  | Order (i : nat)                (* there is a quorum of Commits for the next batch *)
  | Adjust (i n : nat)             (* the instance lags behind stable checkpoints *)
  | Setup (i n : nat)              (* first messages after a catch-up *)
  | Remove (i : nat)               (* the instance is removed as faulty (C74) *)
  | Commit (v : nat)               (* the master commits a batch, first sent in view v *)
  | StartVC (v : nat)              (* a view change to v starts *)
  | NewView                        (* the NewView is accepted *)
  | Reboot
  | StartCatchup
  | Catchup (a : option nat).      (* a catch-up ends; if it got transactions, the last is of view a *)

Section Number.
  (** the backup instances (the number of instances does not change here) *)
  Variable insts : list nat.
  (** primary selection, for this node (C28, C49): is it the primary of instance i in view v *)
  Variable am_primary : nat -> nat -> bool.
  (** Max3PCBatchesInFlight *)
  Variable max_in_flight : option nat.

  (** ordering_service.py:1832-1866 [can_send_3pc_batch] *)
  Definition can_send (s : node) (r : rep) : bool :=
    match prim r with Some true => true | _ => false end && part s && reordered r && negb (waiting r)
    && negb ((0 <? view s) && (0 <? last_pp r) && (snd (last_ord r) <? 1))
    && negb (view s <? fst (last_ord r))
    && (negb (view s =? fst (last_ord r))
        || (snd (last_ord r) <=? last_pp r)
           && match max_in_flight with Some m => last_pp r - snd (last_ord r) <? m | None => true end).

  Definition upd (i : nat) (r : rep) (s : node) : node :=
    mkNode (view s) (prev s) (audit s) (store s) (set i r (reps s)) (part s) (target s).
  (** last_sent_pp_store_helper.py:15-21 [store_last_sent_pp_seq_no] *)
  Definition save (i n : nat) (s : node) : node :=
    mkNode (view s) (prev s) (audit s) (Some (set i (view s, n) (match store s with Some d => d | None => [] end)))
      (reps s) (part s) (target s).
  (** ordering_service.py:1258-1266, the setter of lastPrePrepareSeqNo: it only grows *)
  Definition raise (n : nat) (r : rep) : rep := mkRep (prim r) (waiting r) (reordered r) (max (last_pp r) n) (last_ord r).
  (** 670-675, the setter of last_ordered_3pc *)
  Definition set_ordered (k : nat * nat) (r : rep) : rep :=
    mkRep (prim r) (waiting r) (reordered r) (max (last_pp r) (snd k)) k.

  (** backup_instance_faulty_processor.py:18-26 [restore_replicas] *)
  Definition restore_reps (rs : dict rep) : dict rep :=
    fold_left (fun rs i => match get i rs with Some _ => rs | None => set i fresh rs end) insts rs.
  Definition map_reps (f : nat -> rep -> rep) (rs : dict rep) : dict rep := map (fun '(i, r) => (i, f i r)) rs.
  (** node.py:768-777, the selection of primaries in [setPoolParams]: only where none is known *)
  Definition select (v : nat) (i : nat) (r : rep) : rep :=
    match prim r with
    | None => mkRep (Some (am_primary i v)) (waiting r) (reordered r) (last_pp r) (last_ord r)
    | Some _ => r
    end.

  (** last_sent_pp_store_helper.py:28-72: [try_restore_last_sent_pp_seq_no], with [_can_restore_last_sent_pp_seq_no]
      (the stored view is not looked at; the check of the primary is true for everyone who knows one) and
      [_restore_last_stored].  Simplified: no watermarks. *)
  Fixpoint restore (d : dict (nat * nat)) (rs : dict rep) : bool * dict rep :=
    match d with
    | [] => (false, rs)
    | (i, (v, n)) :: rest =>
      match get i rs with
      | Some r =>
        match prim r with
        | Some _ => (true, snd (restore rest (set i (set_ordered (v, n) (raise n r)) rs)))
        | None => restore rest rs
        end
      | None => restore rest rs
      end
    end.

  (** node.py:1828-1872 [select_primaries_on_catchup_complete], with the audit ledger as it is then *)
  Definition on_catchup (audit' : option nat) (s : node) : node :=
    let rs := restore_reps (reps s) in
    let rs := map_reps (fun _ r => mkRep None (waiting r) (reordered r) (last_pp r) (last_ord r)) rs in
    let prev' := match audit' with Some _ => Some (view s) | None => prev s end in
    let view' := match audit' with Some a => a | None => view s end in
    let rs := map_reps (select view') rs in
    let '(restored, rs') := match prev', store s with Some 0, Some d => restore d rs | _, _ => (false, rs) end in
    (* ordering_service.py:2373, 2489-2491 [_finish_master_reordering] *)
    let rs' := map_reps (fun _ r => mkRep (prim r) (waiting r) true (last_pp r) (last_ord r)) rs' in
    mkNode view' prev' audit' (if restored then store s else None) rs' true (target s).

  Definition step (s : node) (o : op) : node * list event :=
    match o with
    | Send i =>
      (* ordering_service.py:2026-2034 [_do_send_3pc_batch], 2039, 1284 *)
      match get i (reps s) with
      | Some r =>
        if can_send s r then
          let n := S (last_pp r) in (save i n (upd i (raise n r) s), [Sent i (view s) n])
        else (s, [])
      | None => (s, [])
      end
    | Recv i n =>
      (* 939-941, 1292 *)
      match get i (reps s) with
      | Some r =>
        if part s && negb (waiting r) && match prim r with Some false => true | _ => false end
        then (save i n (upd i (raise n r) s), []) else (s, [])
      | None => (s, [])
      end
    | Order i =>
      (* 1455-1467, 1556, 1709; not if the key is not above last_ordered_3pc *)
      match get i (reps s) with
      | Some r =>
        let n := S (snd (last_ord r)) in
        if part s && negb (waiting r) && (n <=? last_pp r) && (fst (last_ord r) <=? view s)
        then (upd i (set_ordered (view s, n) r) s, [Ordered i (view s) n]) else (s, [])
      | None => (s, [])
      end
    | Adjust i n =>
      (* checkpoint_service.py:123-135, ordering_service.py:2224 *)
      match get i (reps s) with
      | Some r => if part s && negb (waiting r) then (upd i (set_ordered (view s, n) r) s, []) else (s, [])
      | None => (s, [])
      end
    | Setup i n =>
      (* ordering_service.py:1022-1042 [l_setup_last_ordered_for_non_master] *)
      match get i (reps s) with
      | Some r =>
        if part s && negb (waiting r) && match prim r with Some true => false | _ => true end
        then (upd i (set_ordered (view s, n) r) s, []) else (s, [])
      | None => (s, [])
      end
    | Remove i => (mkNode (view s) (prev s) (audit s) (store s) (del i (reps s)) (part s) (target s), [])
    | Commit v =>
      (* the audit transaction has the original view; ordering_service.py:1469-1473, node.py:3181-3187 *)
      if part s then
        (mkNode (view s) (prev s) (Some v) (store s)
           (if v =? view s then map_reps (fun i r => let r := select (view s) i r in mkRep (prim r) (waiting r) true (last_pp r) (last_ord r)) (reps s)
            else reps s) (part s) (target s), [])
      else (s, [])
    | StartVC v =>
      (* node.py:620-644, 3189-3191; view_change_service.py:73-89 *)
      (mkNode v (prev s) (audit s) None
         (map_reps (fun _ r => mkRep None true false (last_pp r) (last_ord r)) (restore_reps (reps s))) (part s) (Some v), [])
    | NewView =>
      (* node.py:3193-3197, replica.py:385-392, checkpoint_service.py [process_new_view_accepted] *)
      (mkNode (view s) (prev s) (audit s) (store s)
         (map_reps (fun _ r => mkRep (prim r) false (reordered r) 0 (view s, 0)) (reps s)) (part s) None, [])
    | Reboot =>
      (* node.py:235-256: everything but the disk is new, with the primaries of view 0 *)
      (mkNode 0 None (audit s) (store s) (map_reps (select 0) (restore_reps [])) false None, [])
    | StartCatchup => (mkNode (view s) (prev s) (audit s) (store s) (reps s) false (target s), [])
    | Catchup a => (on_catchup (match a with Some _ => a | None => audit s end) s, [])
    end.

  Fixpoint run (s : node) (os : list op) : node * list event :=
    match os with
    | [] => (s, [])
    | o :: rest => let '(s1, e1) := step s o in let '(s2, e2) := run s1 rest in (s2, e1 ++ e2)
    end.
  (** a node that starts for the first time *)
  Definition init : node := mkNode 0 None None None (map_reps (select 0) (restore_reps [])) false None.
End Number.
