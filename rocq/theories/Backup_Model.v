(** Model of the removal and restoration of backup instances: plenum/server/backup_instance_faulty_processor.py,
    the parts of plenum/server/replicas.py (add_replica, remove_replica) and plenum/server/node.py that
    decide which replicas exist (primaries_disconnection_times, adjustReplicas, _schedule_replica_removal,
    _remove_replica_if_primary_lost, _process_primary_disconnected), and the disconnection time of
    plenum/server/consensus/monitoring/primary_connection_monitor_service.py.

    Nodes, instances and reasons are numbers; the node itself is [me].  Of a replica only when it was
    created (a serial number) and since when its primary is disconnected are kept. *)
From Coq Require Import List Arith Bool.
From Verif Require Import Base Dict.
Import ListNotations.

(** config.py:369-370: "quorum", "local" or anything else *)
Inductive strategy := Quorum | Local | Off.
Record config := Config {
  me : nat;
  on_degraded : strategy;       (* REPLICAS_REMOVING_WITH_DEGRADATION *)
  on_disconnected : strategy;   (* REPLICAS_REMOVING_WITH_PRIMARY_DISCONNECTED *)
  tolerate : nat }.             (* TolerateBackupPrimaryDisconnection *)

(** suspicion_codes.py:79-80 *)
Definition DISCONNECTED : nat := 39.
Definition DEGRADED : nat := 40.

Record rep := Rep { serial : nat; lost_at : option nat }.
Record msg := Msg { v_no : nat; insts : list nat; reason : nat }.
Record node := Node {
  reps : dict rep;                  (* replicas._replicas, a SortedDict *)
  votes : dict (dict nat);          (* backup_instances_faulty *)
  view : nat;
  flt : nat;                        (* node.f *)
  sched : list (nat * nat);         (* scheduled removals: time, instance *)
  sent : list msg;                  (* the messages sent, newest first *)
  next : nat }.                     (* the serial number of the next replica *)

Definition keys {V} (d : dict V) : list nat := map fst d.
Definition has {V} (i : nat) (d : dict V) : bool := existsb (Nat.eqb i) (keys d).

(** SortedDict: [d[k] = v] *)
Fixpoint put {V} (k : nat) (v : V) (d : dict V) : dict V :=
  match d with
  | [] => [(k, v)]
  | (k', v') :: d => if k =? k' then (k, v) :: d else if k <? k' then (k, v) :: (k', v') :: d else (k', v') :: put k v d
  end.

(** replicas.py:32-50 [add_replica]; primary_connection_monitor_service.py:34 *)
Definition add_replica (t i : nat) (s : node) : node :=
  Node (put i (Rep (next s) (Some t)) (reps s)) (votes s) (view s) (flt s) (sched s) (sent s) (S (next s)).
(** replicas.py:52-62 [remove_replica] *)
Definition remove_replica (i : nat) (s : node) : node :=
  if has i (reps s) then Node (del i (reps s)) (votes s) (view s) (flt s) (sched s) (sent s) (next s) else s.
Definition with_votes (s : node) (d : dict (dict nat)) : node :=
  Node (reps s) d (view s) (flt s) (sched s) (sent s) (next s).

(** quorums.py:39 *)
Definition reached (s : node) (n : nat) : bool := S (flt s) <=? n.

(** backup_instance_faulty_processor.py:80-93 the loop of [process_backup_instance_faulty_msg] *)
Definition vote (c : config) (frm : nat) (s : node) (i : nat) : node :=
  if has i (reps s) then
    let d := get_or i [] (votes s) in
    let d := set frm (S (get_or frm 0 d)) d in
    let s := with_votes s (set i d (votes s)) in
    if reached s (length d) || (has (me c) d && reached s (get_or (me c) 0 d))
    then let s := remove_replica i s in with_votes s (del i (votes s))
    else s
  else s.

Definition is_quorum (x : strategy) : bool := match x with Quorum => true | _ => false end.
Definition is_local (x : strategy) : bool := match x with Local => true | _ => false end.

(** backup_instance_faulty_processor.py:64-79: whether a message is looked at *)
Definition refused (c : config) (s : node) (m : msg) : bool :=
  negb (v_no m =? view s) || existsb (Nat.eqb 0) (insts m) ||
  ((reason m =? DISCONNECTED) && negb (is_quorum (on_disconnected c))) ||
  ((reason m =? DEGRADED) && negb (is_quorum (on_degraded c))).
(** backup_instance_faulty_processor.py:53-93 [process_backup_instance_faulty_msg] *)
Definition process (c : config) (m : msg) (frm : nat) (s : node) : node :=
  if refused c s m then s else fold_left (vote c frm) (insts m) s.

(** backup_instance_faulty_processor.py:95-108 [__send_backup_instance_faulty] *)
Definition send (c : config) (changing : bool) (is : list nat) (why : nat) (s : node) : node :=
  if negb changing && match is with [] => true | _ => false end then s
  else
    let m := Msg (view s) is why in
    let s := process c m (me c) s in
    Node (reps s) (votes s) (view s) (flt s) (sched s) (m :: sent s) (next s).
(** backup_instance_faulty_processor.py:110-117 [__remove_replicas] *)
Definition found (c : config) (how : strategy) (changing : bool) (is : list nat) (why : nat) (s : node) : node :=
  match how with
  | Quorum => send c changing is why s
  | Local => fold_left (fun s i => remove_replica i s) is s
  | Off => s
  end.

(** backup_instance_faulty_processor.py:18-27 [restore_replicas] *)
Definition restore (t : nat) (s : node) : node :=
  fold_left (fun s i => if has i (reps s) then s else add_replica t i s) (seq 0 (S (flt s))) (with_votes s []).

(** node.py:1260-1277 [adjustReplicas], called at 749-762 with the number of replicas and f + 1 *)
Definition adjust (t f : nat) (s : node) : node :=
  let s := Node (reps s) (votes s) (view s) f (sched s) (sent s) (next s) in
  let old := length (reps s) in
  let s := fold_left (fun s i => add_replica t i s) (seq old (S f - old)) s in
  fold_left (fun s i => remove_replica i s) (rev (seq (S f) (old - S f))) s.

(** node.py:749-773: the primaries, of which there are f + 1, are then given to the replicas, and a LogicError
    is raised when there are more or fewer replicas ([None]); the replicas are adjusted all the same *)
Definition set_pool_params (t f : nat) (s : node) : option node :=
  let s := adjust t f s in if length (reps s) =? S f then Some s else None.

(** primary_connection_monitor_service.py:85-86,93-94; node.py:3177-3179, 2580-2588 *)
Definition set_lost (i : nat) (x : option nat) (s : node) : node :=
  match get i (reps s) with
  | Some r => Node (set i (Rep (serial r) x) (reps s)) (votes s) (view s) (flt s) (sched s) (sent s) (next s)
  | None => s
  end.
Definition schedule (c : config) (i t : nat) (s : node) : node :=
  if (i =? 0) || negb (is_local (on_disconnected c) || is_quorum (on_disconnected c)) then s
  else Node (reps s) (votes s) (view s) (flt s) (sched s ++ [(t + tolerate c, i)]) (sent s) (next s).

(** node.py:2590-2595 [_remove_replica_if_primary_lost]; 511-513 the times by position *)
Definition is_lost (c : config) (i t : nat) (s : node) : bool :=
  match nth_error (map (fun x => lost_at (snd x)) (reps s)) i with
  | Some (Some d) => tolerate c <=? t - d
  | _ => false
  end.
Definition if_lost (c : config) (changing : bool) (i t : nat) (s : node) : node :=
  if is_lost c i t s then found c (on_disconnected c) changing [i] DISCONNECTED s else s.

Inductive event :=
  | EMsg (m : msg) (frm : nat)                      (* from another node *)
  | EDegraded (is : list nat) (changing : bool)     (* node.py:2537-2540 *)
  | EDisc (i t : nat)                               (* the primary of replica i is disconnected *)
  | EConn (i : nat)                                 (* the primary of replica i is connected *)
  | EFire (i t : nat) (changing : bool)             (* a scheduled removal is due *)
  | ERestore (v t : nat)                            (* node.py:635 view change, 1834 after a catch-up; the new view *)
  | EAdjust (f t : nat).                            (* [set_pool_params]: the first batch of a view, 2742-2746 *)

Fixpoint take_due (i t : nat) (l : list (nat * nat)) : option (list (nat * nat)) :=
  match l with
  | [] => None
  | (d, j) :: l =>
      if (j =? i) && (d <=? t) then Some l
      else match take_due i t l with Some l' => Some ((d, j) :: l') | None => None end
  end.

Definition step (c : config) (s : node) (e : event) : node :=
  match e with
  | EMsg m frm => process c m frm s
  | EDegraded is ch => found c (on_degraded c) ch is DEGRADED s
  | EDisc i t => if has i (reps s) then schedule c i t (set_lost i (Some t) s) else s
  | EConn i => set_lost i None s
  | EFire i t ch =>
      match take_due i t (sched s) with
      | Some l => if_lost c ch i t (Node (reps s) (votes s) (view s) (flt s) l (sent s) (next s))
      | None => s
      end
  | ERestore v t =>
      let s := restore t s in Node (reps s) (votes s) v (flt s) (sched s) (sent s) (next s)
  | EAdjust f t => adjust t f s
  end.
Definition run (c : config) (s : node) (es : list event) : node := fold_left (step c) es s.

(** a node that just learned of its pool *)
Definition start (f t v : nat) : node := adjust t f (Node [] [] v f [] [] 0).
