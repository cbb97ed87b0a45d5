(** Model of what a node makes of its connections: plenum/server/node.py:253-257, 735-750, 1169-1202 (status, replicas,
    watcher), plenum/common/motor.py, plenum/common/event_bus.py:15-46, plenum/server/inconsistency_watchers.py,
    plenum/server/quorums.py.  Sets are lists without repetition, in any order.  Not modelled: ledger statuses sent to new
    nodes; what the subscribers do (the watch on the primary is C75). *)
From Coq Require Import List Arith Bool.
From Verif Require Import Dict.
Import ListNotations.

Definition mem (x : nat) (l : list nat) : bool := existsb (Nat.eqb x) l.
(** Python sets: [a - b], [add], [discard] *)
Definition minus (a b : list nat) : list nat := filter (fun x => negb (mem x b)) a.
Definition discard (x : nat) (l : list nat) : list nat := filter (fun y => negb (x =? y)) l.

(** plenum/common/util.py [getMaxFailures]; quorums.py:16-21 *)
Definition max_failures (n : nat) : nat := (n - 1) / 3.
Definition weak (n : nat) : nat := max_failures n + 1.
Definition strong (n : nat) : nat := n - max_failures n.

(** *** inconsistency_watchers.py; [w_calls]: how often the callback was called *)
Record watcher := Watcher { w_nodes : list nat; w_conn : list nat; w_reached : bool; w_calls : nat }.
(** inconsistency_watchers.py:6-11 *)
Definition new_watcher : watcher := Watcher [] [] false 0.
Inductive wop := WConnect (x : nat) | WDisconnect (x : nat) | WNodes (l : list nat).
(** inconsistency_watchers.py:13-31 *)
Definition wstep (w : watcher) (o : wop) : watcher :=
  match o with
  | WConnect x =>
      let c := add x (w_conn w) in
      Watcher (w_nodes w) c (if strong (length (w_nodes w)) <=? length c then true else w_reached w) (w_calls w)
  | WDisconnect x =>
      let c := discard x (w_conn w) in
      if w_reached w && negb (weak (length (w_nodes w)) <=? length c)
      then Watcher (w_nodes w) c false (S (w_calls w))
      else Watcher (w_nodes w) c (w_reached w) (w_calls w)
  | WNodes l => Watcher l (w_conn w) (w_reached w) (w_calls w)
  end.
Definition wrun (w : watcher) (os : list wop) : watcher := fold_left wstep os w.

(** *** the buses of the replicas: event_bus.py:15-46; [heard]: the events, oldest first *)
Inductive event := Connected (x : nat) | Disconnected (x : nat).
Record bus := Bus { known : list nat; heard : list event }.
Definition new_bus : bus := Bus [] [].
(** event_bus.py:35-43 [update_connecteds] *)
Definition update_connecteds (b : bus) (c : list nat) : bus :=
  Bus c (heard b ++ map Connected (minus c (known b)) ++ map Disconnected (minus (known b) c)).

(** *** the node *)
(** startable.py *)
Inductive status := Stopped | Starting | StartedHungry | Started | Stopping.
Definition going (s : status) : bool := match s with Starting | StartedHungry | Started => true | _ => false end.
Definition ready (s : status) : bool := match s with StartedHungry | Started => true | _ => false end.
Definition status_eqb (a b : status) : bool :=
  match a, b with Stopped, Stopped | Starting, Starting | StartedHungry, StartedHungry | Started, Started | Stopping, Stopping => true | _, _ => false end.
(** [conns]: the stack's (keep_in_touch.py:28-47, C82); [pool]: allNodeNames; [total], [minimum]: node.py:746-750;
    [told]: the changes of status told to the replicas (motor.py:24-33) *)
Record node := Node { conns : list nat; pool : list nat; total : nat; minimum : nat; stat : status; told : list (status * status);
                      reps : dict bus; watch : watcher }.
Definition set_status (n : node) (s : status) : node :=
  if status_eqb (stat n) s then n
  else Node (conns n) (pool n) (total n) (minimum n) s (told n ++ [(stat n, s)]) (reps n) (watch n).
(** node.py:977-983, 1180-1185 *)
Definition status_for (n : node) : status :=
  if length (conns n) + 1 =? total n then Started
  else if minimum n <=? length (conns n) + 1 then StartedHungry else Starting.
(** node.py:735-750 [setPoolParams] *)
Definition set_pool (n : node) (l : list nat) : node :=
  Node (conns n) l (length l) (2 * max_failures (length l) + 1) (stat n) (told n) (reps n) (wstep (watch n) (WNodes l)).
(** keep_in_touch.py:33-47 and node.py:1169-1202 [onConnsChanged] *)
Definition conns_changed (n : node) (c : list nat) : node :=
  let joined := minus c (conns n) in
  let left := minus (conns n) c in
  match joined, left with
  | [], [] => Node c (pool n) (total n) (minimum n) (stat n) (told n) (reps n) (watch n)
  | _, _ =>
      let n1 := Node c (pool n) (total n) (minimum n) (stat n) (told n) (reps n) (watch n) in
      let n2 := if going (stat n1) then set_status n1 (status_for n1) else n1 in
      Node (conns n2) (pool n2) (total n2) (minimum n2) (stat n2) (told n2)
           (map (fun r => (fst r, update_connecteds (snd r) c)) (reps n2))
           (wrun (wrun (watch n2) (map WDisconnect left)) (map WConnect joined))
  end.
Inductive op := Conns (c : list nat) | Pool (l : list nat) | Start | Stop | AddReplica (i : nat) | RemoveReplica (i : nat).
(** node.py:1021-1034 [reset]: the connections are forgotten, nobody is told *)
Definition reset (n : node) : node := Node [] (pool n) (total n) (minimum n) (stat n) (told n) (reps n) (watch n).
(** [Conns]: the connections are looked at only while the node is going (node.py:1070); motor.py:50-67 [stop], node.py:919-928
    [start]; replicas.py:32-57 [add_replica], [remove_replica]: replica.py:156 makes a new bus.  (node.py:1261-1277 [adjustReplicas],
    backup_instance_faulty_processor.py:18-28 [restore_replicas]; adding an instance that is there replaces it, C74) *)
Definition step (n : node) (o : op) : node :=
  match o with
  | Conns c => if going (stat n) then conns_changed n c else n
  | Pool l => set_pool n l
  | Start => if going (stat n) then n else set_status n Starting
  | Stop => match stat n with Stopping | Stopped => n | _ => set_status (reset (set_status n Stopping)) Stopped end
  | AddReplica i => Node (conns n) (pool n) (total n) (minimum n) (stat n) (told n) (set i new_bus (reps n)) (watch n)
  | RemoveReplica i => Node (conns n) (pool n) (total n) (minimum n) (stat n) (told n) (del i (reps n)) (watch n)
  end.
Definition run (n : node) (os : list op) : node := fold_left step os n.
(** node.py:253-257: the pool is set, then the node is connected to itself *)
Definition init (self : nat) (l : list nat) : node :=
  Node [] l (length l) (2 * max_failures (length l) + 1) Stopped [] [] (wrun new_watcher [WNodes l; WConnect self]).
