(** Model of plenum/server/consensus/monitoring/primary_connection_monitor_service.py: a replica watches the
    connection to its primary, and the one of the master votes for a view change when it is gone for long.

    Times are whole numbers; nodes are numbers (the name of a replica is the one of its node).  Of the timer
    (plenum/common/timer.py, C32 and C45) the events of this service are kept, ordered by time; the time is
    read once in a call of [service]. *)
From Coq Require Import List Arith Bool.
From Verif Require Import Base Dict.
Import ListNotations.

Record config := Config {
  is_master : bool;
  me : nat;
  initial : nat;     (* INITIAL_PROPOSE_VIEW_CHANGE_TIMEOUT *)
  tolerate : nat;    (* ToleratePrimaryDisconnection *)
  again : nat }.     (* NEW_VIEW_TIMEOUT *)

(** [_check_primary_connection], and the wrapped callback of [_propose_view_change_timer] *)
Inductive job := Check | Tick.
Definition job_eqb (a b : job) : bool := match a, b with Check, Check | Tick, Tick => true | _, _ => false end.

Record state := State {
  lost : option nat;            (* _primary_disconnection_time *)
  queue : list (nat * job);     (* the events of the timer *)
  on : bool;                    (* the repeating timer is active *)
  prim : option nat;            (* _data.primary_name *)
  out : list nat;               (* the times of the VoteForViewChange sent in the last event, newest first *)
  told : list nat }.            (* the times of the PrimaryDisconnected sent in the last event *)

(** timer.py:44-46 [schedule] *)
Fixpoint insert (d : nat) (j : job) (q : list (nat * job)) : list (nat * job) :=
  match q with
  | [] => [(d, j)]
  | (d', j') :: q' => if d <? d' then (d, j) :: q else (d', j') :: insert d j q'
  end.
Definition schedule (d : nat) (j : job) (s : state) : state :=
  State (lost s) (insert d j (queue s)) (on s) (prim s) (out s) (told s).
(** timer.py:48-51 [cancel] *)
Definition cancel (j : job) (s : state) : state :=
  State (lost s) (filter (fun x => negb (job_eqb (snd x) j)) (queue s)) (on s) (prim s) (out s) (told s).
(** timer.py:78-88 [RepeatingTimer.start], [stop] *)
Definition start (c : config) (t : nat) (s : state) : state :=
  if on s then s
  else schedule (t + again c) Tick (State (lost s) (queue s) true (prim s) (out s) (told s)).
Definition stop (s : state) : state :=
  if on s then cancel Tick (State (lost s) (queue s) false (prim s) (out s) (told s)) else s.

Definition with_lost (x : option nat) (s : state) : state := State x (queue s) (on s) (prim s) (out s) (told s).
(** 85-91 [_primary_connected] *)
Definition connected (c : config) (s : state) : state :=
  let s := with_lost None s in if is_master c then stop (cancel Check s) else s.
(** 93-99 [_primary_disconnected] *)
Definition disconnected (c : config) (t : nat) (s : state) : state :=
  let s := State (Some t) (queue s) (on s) (prim s) (out s) (t :: told s) in
  if is_master c then schedule (t + tolerate c) Check s else s.

Definition mem (x : nat) (l : list nat) : bool := existsb (Nat.eqb x) l.
(** 126-134 [_is_primary_connected] *)
Definition is_primary_connected (c : config) (p : nat) (conns validators : list nat) : bool :=
  if p =? me c then true else if mem p conns then true else negb (mem p validators).
(** the primary is set and [process_primary_selected] (66-70) called *)
Definition selected (c : config) (t p : nat) (conns validators : list nat) (s : state) : state :=
  let s := State (lost s) (queue s) (on s) (Some p) (out s) (told s) in
  if is_primary_connected c p conns validators then connected c s else disconnected c t s.

(** 136-137 [_propose_view_change].  The vote is handled at once, and when it completes a quorum the view change
    may be, too, up to the selection of a primary ([inner]: view_change_service.py:71-131,
    node.py:3193-3199). *)
Definition select := (nat * list nat * list nat)%type.
Definition vote (c : config) (t : nat) (inner : option select) (s : state) : state :=
  let s := State (lost s) (queue s) (on s) (prim s) (t :: out s) (told s) in
  match inner with Some (p, conns, vals) => selected c t p conns vals s | None => s end.

(** 108-124 [_check_primary_connection] *)
Definition check (c : config) (t : nat) (ready : bool) (inner : option select) (s : state) : state :=
  match lost s with
  | None => s
  | Some _ =>
      if negb ready then schedule (t + tolerate c) Check s
      else start c t (vote c t inner s)
  end.
(** timer.py:62-67 and 139-141 [_propose_view_change_if_needed] *)
Definition tick (c : config) (t : nat) (inner : option select) (s : state) : state :=
  if negb (on s) then s
  else
    let s := match lost s with Some _ => vote c t inner s | None => s end in
    schedule (t + again c) Tick s.

(** timer.py:37-39 [service]; the primary is selected within the first vote, if at all.  No callback adds an event
    that is due at once, so one round per event is enough. *)
Fixpoint serve (c : config) (fuel t : nat) (ready : bool) (inner : option select) (s : state) : state :=
  match fuel with
  | 0 => s
  | S n =>
      match queue s with
      | [] => s
      | (d, j) :: q =>
          if d <=? t then
            let s0 := State (lost s) q (on s) (prim s) (out s) (told s) in
            let s1 := match j with Check => check c t ready inner s0 | Tick => tick c t inner s0 end in
            serve c n t ready (match out s1 with [] => inner | _ => None end) s1
          else s
      end
  end.

Inductive event :=
  | Conn (t x : nat)              (* 58-60 node x is connected *)
  | Disc (t x : nat)              (* 62-64 node x is disconnected *)
  | Select (t p : nat) (conns validators : list nat)   (* p is the primary, and the service is told *)
  | NewPrimary (t : nat) (p : option nat)  (* the primary is set (view_change_service.py:85-99) and the service is not told *)
  | Status (t : nat) (woke : bool) (* 72-83 the status changed ([woke]: from starting to started_hungry) *)
  | Serve (t : nat) (ready synced : bool) (inner : option select). (* the timer is served *)

Definition fresh (s : state) : state := State (lost s) (queue s) (on s) (prim s) [] [].
Definition is_prim (x : nat) (s : state) : bool := match prim s with Some p => x =? p | None => false end.
Definition step (c : config) (s0 : state) (e : event) : state :=
  let s := fresh s0 in
  match e with
  | Conn _ x => if is_prim x s then connected c s else s
  | Disc t x => if is_prim x s then disconnected c t s else s
  | Select t p conns vals => selected c t p conns vals s
  | NewPrimary _ p => State (lost s) (queue s) (on s) p [] []
  | Status t woke =>
      match lost s, prim s with
      | Some _, Some _ => if woke then schedule (t + tolerate c) Check s else s
      | _, _ => s
      end
  | Serve t ready synced inner => serve c (length (queue s)) t (ready && synced) inner s
  end.

(** 22-49 [__init__], at time [t] *)
Definition init (c : config) (t : nat) : state :=
  let s := State (Some t) [] false None [] [] in
  if is_master c then schedule (t + initial c) Check s else s.
(** histories are written newest first *)
Definition run (c : config) (t0 : nat) (h : list event) : state := fold_right (fun e s => step c s e) (init c t0) h.
