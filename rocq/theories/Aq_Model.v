(** The queue of actions by which a node and its monitor do things later or again and again.
    plenum/server/has_action_queue.py; used by plenum/server/node.py:272-284, 956-961, 2587-2590 and plenum/server/monitor.py:222-229.

    Simplifications.  An action is a number; what it does to the queue when it runs is a list of commands ([prog]), the rest of what it
    does does not matter here.  Time is a natural number and passes by the command [Wait].  The function [wrapper] made by
    [startRepeating] is a new object at each call: [Wrap] has the number of the call.  The keys of [scheduled] are compared as Python
    compares functions: the same action is the same key.  [trace] is a ghost: what was asked for and what was run. *)
From Coq Require Import List Arith Bool.
Import ListNotations.

Inductive key := Plain (a : nat) | Wrap (call a d : nat).
Definition key_eqb (x y : key) : bool :=
  match x, y with
  | Plain a, Plain b => a =? b
  | Wrap c a d, Wrap c' a' d' => (c =? c') && (a =? a') && (d =? d')
  | _, _ => false
  end.

(** what a caller or an action can do *)
Inductive cmd :=
| Schedule (a d : nat) | CancelAll (a : nat) | CancelId (i : nat) | Start (a d : nat) | Stop (a : nat) (strict : bool) | Wait (d : nat) | Raise.
(** asked for with an id and a time ([None]: at once), cancelled, run at a time *)
Inductive event := Asked (i : nat) (k : key) (due : option nat) | CancelledAll (k : key) | CancelledId (i : nat) | Ran (i : nat) (t : nat).

Record state := {
  now : nat;
  queue : list (key * nat);                 (* actionQueue *)
  stash : list (nat * (key * nat));         (* aqStash *)
  next_check : option nat;                  (* aqNextCheck; None is infinity *)
  aid : nat;
  reps : list nat;                          (* repeatingActions *)
  scheduled : list (key * list nat);
  calls : nat;
  trace : list event }.
(** has_action_queue.py:13-21 *)
Definition init : state :=
  {| now := 0; queue := []; stash := []; next_check := None; aid := 0; reps := []; scheduled := []; calls := 0; trace := [] |}.

Definition with_now x (s : state) : state :=
  {| now := x; queue := queue s; stash := stash s; next_check := next_check s; aid := aid s; reps := reps s; scheduled := scheduled s; calls := calls s; trace := trace s |}.
Definition with_queue x (s : state) : state :=
  {| now := now s; queue := x; stash := stash s; next_check := next_check s; aid := aid s; reps := reps s; scheduled := scheduled s; calls := calls s; trace := trace s |}.
Definition with_stash x c (s : state) : state :=
  {| now := now s; queue := queue s; stash := x; next_check := c; aid := aid s; reps := reps s; scheduled := scheduled s; calls := calls s; trace := trace s |}.
Definition with_aid x (s : state) : state :=
  {| now := now s; queue := queue s; stash := stash s; next_check := next_check s; aid := x; reps := reps s; scheduled := scheduled s; calls := calls s; trace := trace s |}.
Definition with_reps x c (s : state) : state :=
  {| now := now s; queue := queue s; stash := stash s; next_check := next_check s; aid := aid s; reps := x; scheduled := scheduled s; calls := c; trace := trace s |}.
Definition with_scheduled x (s : state) : state :=
  {| now := now s; queue := queue s; stash := stash s; next_check := next_check s; aid := aid s; reps := reps s; scheduled := x; calls := calls s; trace := trace s |}.
Definition note (e : event) (s : state) : state :=
  {| now := now s; queue := queue s; stash := stash s; next_check := next_check s; aid := aid s; reps := reps s; scheduled := scheduled s; calls := calls s; trace := trace s ++ [e] |}.

(** the dict [scheduled] *)
Fixpoint look (k : key) (m : list (key * list nat)) : option (list nat) :=
  match m with [] => None | (k', v) :: m' => if key_eqb k k' then Some v else look k m' end.
Fixpoint put (k : key) (v : list nat) (m : list (key * list nat)) : list (key * list nat) :=
  match m with [] => [(k, v)] | (k', v') :: m' => if key_eqb k k' then (k', v) :: m' else (k', v') :: put k v m' end.
(** [list.remove]: the first occurrence *)
Fixpoint drop (i : nat) (l : list nat) : list nat :=
  match l with [] => [] | x :: l' => if i =? x then l' else x :: drop i l' end.
Definition mem (x : nat) (l : list nat) : bool := existsb (Nat.eqb x) l.

Definition omin (a : option nat) (b : nat) : option nat := match a with None => Some b | Some a => Some (Nat.min a b) end.

(** [_schedule] (23-50) *)
Definition schedule (k : key) (d : nat) (s : state) : state :=
  let i := S (aid s) in
  let s := with_aid i s in
  let s := note (Asked i k (if 0 <? d then Some (now s + d) else None)) s in
  let s := if 0 <? d then with_stash (stash s ++ [(now s + d, (k, i))]) (omin (next_check s) (now s + d)) s
           else with_queue (queue s ++ [(k, i)]) s in
  with_scheduled (put k (match look k (scheduled s) with None => [] | Some l => l end ++ [i]) (scheduled s)) s.

(** [_cancel] (52-76) *)
Definition cancel_all (k : key) (s : state) : state :=
  note (CancelledAll k) (match look k (scheduled s) with None => s | Some _ => with_scheduled (put k [] (scheduled s)) s end).
Fixpoint drop_id (i : nat) (m : list (key * list nat)) : list (key * list nat) :=
  match m with
  | [] => []
  | (k, l) :: m' => if mem i l then (k, drop i l) :: m' else (k, l) :: drop_id i m'
  end.
Definition cancel_id (i : nat) (s : state) : state := note (CancelledId i) (with_scheduled (drop_id i (scheduled s)) s).

(** [startRepeating], [stopRepeating] (106-133); the flag says whether an error was raised *)
Definition start (a d : nat) (s : state) : state :=
  if mem a (reps s) then s
  else schedule (Wrap (calls s) a d) d (with_reps (reps s ++ [a]) (S (calls s)) s).
Definition stop (a : nat) (strict : bool) (s : state) : state * bool :=
  if mem a (reps s) then (with_reps (filter (fun x => negb (x =? a)) (reps s)) (calls s) s, false) else (s, strict).
Definition exec (s : state) (c : cmd) : state * bool :=
  match c with
  | Schedule a d => (schedule (Plain a) d s, false)
  | CancelAll a => (cancel_all (Plain a) s, false)
  | CancelId i => (cancel_id i s, false)
  | Start a d => (start a d s, false)
  | Stop a strict => stop a strict s
  | Wait d => (with_now (now s + d) s, false)
  | Raise => (s, true)
  end.
Fixpoint exec_all (s : state) (cs : list cmd) : state * bool :=
  match cs with [] => (s, false) | c :: cs' => let '(s, e) := exec s c in if e then (s, true) else exec_all s cs' end.

(** what becomes of a call of [_serviceActions]; [Loops]: not ended after so many actions *)
Inductive outcome := Done | Raised | Loops.
Section Queue.
  Variable prog : nat -> list cmd.

  (** an action, or the [wrapper] of a repeated one (107-111) *)
  Definition run_key (k : key) (s : state) : state * bool :=
    match k with
    | Plain a => exec_all s (prog a)
    | Wrap c a d =>
        if mem a (reps s) then let '(s, e) := exec_all s (prog a) in if e then (s, true) else (schedule (Wrap c a d) d s, false)
        else (s, false)
    end.
  (** the actions that are due go to the front of the queue (84-95); [aqStash.remove(d)] takes out [d]: the ids differ *)
  Definition due (t : nat) (x : nat * (key * nat)) : bool := fst x <? t.
  Definition take_due (s : state) : state :=
    match stash s with
    | [] => s
    | _ =>
        if match next_check s with None => false | Some c => c <? now s end then
          with_stash (filter (fun x => negb (due (now s) x)) (stash s)) (fold_left (fun e x => omin e (fst x)) (stash s) None)
            (with_queue (rev (map snd (filter (due (now s)) (stash s))) ++ queue s) s)
        else s
    end.
  (** 97-107; a failed assertion is an error *)
  Fixpoint loop (fuel : nat) (s : state) : state * outcome :=
    match queue s with
    | [] => (s, Done)
    | (k, i) :: q =>
        match fuel with
        | 0 => (s, Loops)
        | S fuel =>
            let s := with_queue q s in
            match look k (scheduled s) with
            | None => (s, Raised)
            | Some l =>
                if mem i l then
                  let '(s, e) := run_key k (note (Ran i (now s)) (with_scheduled (put k (drop i l) (scheduled s)) s)) in
                  if e then (s, Raised) else loop fuel s
                else loop fuel s
            end
        end
    end.
  Definition service (fuel : nat) (s : state) : state * outcome := loop fuel (take_due s).

  (** a caller does something, or the event loop calls [_serviceActions] *)
  Inductive op := Do (c : cmd) | Service (fuel : nat).
  Definition step (s : state) (o : op) : state := match o with Do c => fst (exec s c) | Service n => fst (service n s) end.
  Definition run (s : state) (os : list op) : state := fold_left step os s.
End Queue.
