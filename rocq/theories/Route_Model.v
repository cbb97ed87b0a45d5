(** Model of how a node gives messages to its protocol instances: plenum/server/node.py:1260-1311, 1383-1443, 3229-3243,
    749-762; plenum/server/replicas.py:32-62, 104-112.  An instance is what it was handed since it was made (its inbox and what it
    took from it); what it does with it is not modelled here.  Instance numbers that are no non-negative whole numbers, which are
    dropped (node.py:1393-1394), are left out; views (node.py:1301-1311, 1404-1425: nothing is put there) are not modelled. *)
From Coq Require Import List Arith Bool.
From Verif Require Import Dict.
Import ListNotations.

(** [ThreePhaseType] (node_messages.py:487), [InstanceChange], and others: [Checkpoint], [OldViewPrePrepareRequest] and so on, which
    name an instance, [MessageReq], [MessageRep], which may name one in their parameters (node.py:3229-3243), [ViewChange], [ViewChangeAck],
    [NewView], which name none *)
Inductive kind := ThreePhase | Change | Other.
Record msg := Msg { m_kind : kind; m_inst : option nat; m_from : nat; m_body : nat }.
Record node := Node { reps : dict (list msg); future : dict (list msg) (** [msgsForFutureReplicas] *); required : nat }.
(** node.py:244, 250 *)
Definition init : node := Node [] [] 0.

(** replicas.py:32-50, 52-62; 104-112: [pass_message], to one and to all *)
Definition add_replica (i : nat) (s : node) : node := Node (set i [] (reps s)) (future s) (required s).
Definition remove_replica (i : nat) (s : node) : node := Node (del i (reps s)) (future s) (required s).
Definition pass_one (m : msg) (i : nat) (s : node) : node :=
  match get i (reps s) with Some l => Node (set i (l ++ [m]) (reps s)) (future s) (required s) | None => s end.
Definition pass_all (m : msg) (s : node) : node := Node (map (fun e => (fst e, snd e ++ [m])) (reps s)) (future s) (required s).

(** node.py:1383-1399 [stash_replica_msg_if_needed] *)
Definition stash (m : msg) (i : nat) (s : node) : node :=
  if required s <=? i then Node (reps s) (set i (get_or i [] (future s) ++ [m]) (future s)) (required s) else s.
(** node.py:1428-1443 [sendToReplica] *)
Definition send_to (m : msg) (s : node) : node :=
  match (match m_kind m with Change => Some 0 | _ => m_inst m end) with
  | Some i => match get i (reps s) with None => stash m i s | Some _ => pass_one m i s end
  | None => pass_all m s
  end.
(** node.py:1279-1286 [_dispatch_stashed_msg], 1288-1299 [processStashedMsgsForReplica]: a queue is emptied from its front *)
Definition dispatch (m : msg) (s : node) : node := match m_kind m with ThreePhase | Change => send_to m s | Other => s end.
Fixpoint dispatch_all (l : list msg) (s : node) : node := match l with [] => s | m :: r => dispatch_all r (dispatch m s) end.
Definition process_stashed (i : nat) (s : node) : node :=
  match get i (future s) with
  | None => s
  | Some l => dispatch_all l (Node (reps s) (set i [] (future s)) (required s))
  end.
(** node.py:1260-1277 [adjustReplicas], called at 749-762 *)
Definition grow (s : node) (i : nat) : node := process_stashed i (add_replica i s).
Definition adjust (old new : nat) (s : node) : node :=
  let s := fold_left grow (seq old (new - old)) s in
  let s := fold_left (fun s i => remove_replica i s) (rev (seq new (old - new))) s in
  Node (reps s) (filter (fun e => new <=? fst e) (future s)) (required s).
Definition set_pool (r : nat) (s : node) : node := adjust (length (reps s)) r (Node (reps s) (future s) r).
(** backup_instance_faulty_processor.py:18-27 *)
Definition restore (s : node) : node :=
  fold_left (fun s i => match get i (reps s) with None => add_replica i s | Some _ => s end) (seq 0 (required s)) s.

(** a message, other numbers of instances (a change of the pool), an instance found faulty and removed, a view change *)
Inductive op := Recv (m : msg) | Pool (r : nat) | Remove (i : nat) | ViewChanged.
Definition step (s : node) (o : op) : node :=
  match o with Recv m => send_to m s | Pool r => set_pool r s | Remove i => remove_replica i s | ViewChanged => restore s end.
Definition run (s : node) (os : list op) : node := fold_left step os s.
Definition handed (i : nat) (s : node) : option (list msg) := get i (reps s).
