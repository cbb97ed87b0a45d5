(** Model of plenum/common/timer.py: QueueTimer and RepeatingTimer. *)
From Coq Require Import List Arith ZArith Bool.
Import ListNotations.
Local Open Scope Z_scope.

(** A callback is a function of the application, or the [wrapped_callback] of a RepeatingTimer. *)
Inductive callback := Plain (n : nat) | Wrapped (r : nat).
Definition callback_eqb (a b : callback) : bool :=
  match a, b with
  | Plain x, Plain y => (x =? y)%nat
  | Wrapped x, Wrapped y => (x =? y)%nat
  | _, _ => false
  end.

(** 28 [TimerEvent].  Times are integers (the code has floats).  [e_id] numbers the calls of
    [schedule]; the code has no such field, it only serves to tell events apart. *)
Record ev := Ev { e_id : nat; e_ts : Z; e_cb : callback }.

(** What application code does with timers. *)
Inductive action :=
| ASchedule (delay : Z) (n : nat)   (* timer.schedule(delay, callback) *)
| ACancel (n : nat)                 (* timer.cancel(callback) *)
| AStart (r : nat) | AStop (r : nat). (* RepeatingTimer.start, stop *)

(** The application: what each callback does, and what the user callback and the interval of each
    RepeatingTimer are ([None]: [update_interval] was only called with values <= 0, 90-94). *)
Record app := App {
  prog : nat -> list action; rprog : nat -> list action; interval : nat -> option Z }.

(** What happened, for the statements only. *)
Inductive entry :=
| LSched (e : ev) | LCancel (c : callback)
| LRun (e : ev) (now : Z)     (* service called the callback of [e], having read time [now] *)
| LEnd (now : Z)              (* service found the next event not due *)
| LIdle                       (* service found no event *)
| LStart (r : nat) | LStop (r : nat) (* a RepeatingTimer got active, inactive *)
| LCall (r : nat).            (* the user callback of a RepeatingTimer is called *)

(** [clock] gives the results of the next calls of [get_current_time]; when it is used up the
    execution stops in the middle ([running] is false). *)
Record state := State {
  queue : list ev; next : nat; active : nat -> bool; clock : list Z; running : bool; log : list entry }.
Definition init (clock : list Z) : state := State [] 0 (fun _ => false) clock true [].

Definition note (x : entry) (s : state) : state :=
  State (queue s) (next s) (active s) (clock s) (running s) (log s ++ [x]).
Definition with_active (f : nat -> bool) (s : state) : state :=
  State (queue s) (next s) f (clock s) (running s) (log s).

(** SortedListWithKey.add: behind the events with the same or a smaller time *)
Fixpoint insert (e : ev) (q : list ev) : list ev :=
  match q with
  | [] => [e]
  | x :: q' => if e_ts e <? e_ts x then e :: q else x :: insert e q'
  end.

(** 44-46 [QueueTimer.schedule] *)
Definition schedule (delay : Z) (c : callback) (s : state) : state :=
  match clock s with
  | [] => State (queue s) (next s) (active s) [] false (log s)
  | now :: clock' =>
      let e := Ev (next s) (now + delay) c in
      State (insert e (queue s)) (S (next s)) (active s) clock' (running s) (log s ++ [LSched e])
  end.

(** 48-51 [QueueTimer.cancel] *)
Definition cancel (c : callback) (s : state) : state :=
  State (filter (fun e => negb (callback_eqb (e_cb e) c)) (queue s)) (next s) (active s) (clock s) (running s)
    (log s ++ [LCancel c]).

(** 78-82 [RepeatingTimer.start] *)
Definition start (a : app) (r : nat) (s : state) : state :=
  match interval a r with
  | None => s
  | Some i =>
      if active s r then s
      else schedule i (Wrapped r) (note (LStart r) (with_active (fun x => (x =? r)%nat || active s x) s))
  end.
(** 84-88 [RepeatingTimer.stop] *)
Definition stop (r : nat) (s : state) : state :=
  if negb (active s r) then s
  else cancel (Wrapped r) (note (LStop r) (with_active (fun x => negb (x =? r)%nat && active s x) s)).

Definition do_action (a : app) (x : action) (s : state) : state :=
  if negb (running s) then s
  else match x with
  | ASchedule d n => schedule d (Plain n) s
  | ACancel n => cancel (Plain n) s
  | AStart r => start a r s
  | AStop r => stop r s
  end.
Definition do_actions (a : app) (l : list action) (s : state) : state :=
  fold_left (fun s x => do_action a x s) l s.

(** calling a callback; for a RepeatingTimer 62-67 [wrapped_callback] *)
Definition call (a : app) (c : callback) (s : state) : state :=
  match c with
  | Plain n => do_actions a (prog a n) s
  | Wrapped r =>
      if negb (active s r) then s
      else
        let s := do_actions a (rprog a r) (note (LCall r) s) in
        if negb (running s) then s
        else match interval a r with Some i => schedule i (Wrapped r) s | None => s end
  end.

(** 37-39 [QueueTimer.service]. [fuel]: one more than the number of clock readings is enough,
    each round reads the clock. *)
Fixpoint service (a : app) (fuel : nat) (s : state) : state :=
  match fuel with
  | O => s
  | S fuel' =>
      match queue s with
      | [] => note LIdle s
      | e :: q =>
          match clock s with
          | [] => State (queue s) (next s) (active s) [] false (log s)
          | now :: clock' =>
              if e_ts e <=? now then
                let s1 := call a (e_cb e) (State q (next s) (active s) clock' (running s) (log s ++ [LRun e now])) in
                if running s1 then service a fuel' s1 else s1
              else State (queue s) (next s) (active s) clock' (running s) (log s ++ [LEnd now])
          end
      end
  end.

Inductive op := OAct (x : action) | OService.
Definition step (a : app) (s : state) (o : op) : state :=
  if negb (running s) then s
  else match o with
  | OAct x => do_action a x s
  | OService => service a (S (length (clock s))) s
  end.
Definition run (a : app) (clock : list Z) (ops : list op) : state := fold_left (step a) ops (init clock).
