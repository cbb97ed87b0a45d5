(** Model of the loop that gives the parts of a node their turns: stp_core/loop/looper.py:64-319.
    A prodable is known by its name.  What a prodable does in its turn is an oracle: it raises, or it returns a count after
    adding and removing prodables or asking the loop to stop.  Simplified: the coroutines of a turn are run to their end
    before anything else touches the looper (one event loop); [asyncio.sleep] and the logging of durations are left out;
    an object and its name are one-to-one. *)
From Coq Require Import List Arith Bool.
Import ListNotations.

(** what can be seen from outside: the calls of start, prod and stop *)
Inductive event := Started (n : nat) | Prodded (n : nat) | Stopped (n : nat).
(** the task runForever: still there, returned, ended by an exception, or in a pass that has not come to an end *)
Inductive task := Live | Done | Failed | Busy.
(** 82: [prodables]; 107: [runFut]; 108: [running]; 133: [autoStart] *)
Record looper := Looper { prodables : list nat; run_fut : task; running : bool; auto_start : bool; events : list event }.

(** 69-135: the constructor does not look for equal names; 306-311 [startall] *)
Definition make (ps : list nat) (auto : bool) : looper := Looper ps Live true auto (if auto then map Started ps else []).
(** 155-166 [add]; [None]: ProdableAlreadyAdded *)
Definition add (s : looper) (n : nat) : option looper :=
  if existsb (Nat.eqb n) (prodables s) then None
  else Some (Looper (prodables s ++ [n]) (run_fut s) (running s) (auto_start s) (if auto_start s then events s ++ [Started n] else events s)).
(** list.remove: the first one; [None]: ValueError *)
Fixpoint remove1 (n : nat) (l : list nat) : option (list nat) :=
  match l with
  | [] => None
  | m :: q => if n =? m then Some q else match remove1 n q with Some r => Some (m :: r) | None => None end
  end.
Definition set_prodables (s : looper) (l : list nat) : looper := Looper l (run_fut s) (running s) (auto_start s) (events s).
(** 174-176 [removeProdable] with an object; the prodable is not stopped *)
Definition remove (s : looper) (n : nat) : option looper :=
  match remove1 n (prodables s) with Some l => Some (set_prodables s l) | None => None end.
(** 177-187 with a name: a warning if it is not there *)
Definition remove_name (s : looper) (n : nat) : looper :=
  match remove1 n (prodables s) with Some l => set_prodables s l | None => s end.
(** 191-202 [hasProdable] *)
Definition has (s : looper) (n : nat) : bool := existsb (Nat.eqb n) (prodables s).
(** 265-269 [handleSignal] *)
Definition signal (s : looper) : looper := Looper (prodables s) (run_fut s) false (auto_start s) (events s).
Definition set_task (s : looper) (t : task) : looper := Looper (prodables s) t (running s) (auto_start s) (events s).
Definition emit (s : looper) (e : list event) : looper := Looper (prodables s) (run_fut s) (running s) (auto_start s) (events s ++ e).

(** what a prodable does to the looper in its turn *)
Inductive act := AAdd (n : nat) | ARemove (n : nat) | ASignal.
(** an exception of [add] or [removeProdable] is not caught there; what was done before it stays *)
Fixpoint do_acts (s : looper) (l : list act) : looper * bool :=
  match l with
  | [] => (s, true)
  | AAdd n :: q => match add s n with Some s' => do_acts s' q | None => (s, false) end
  | ARemove n :: q => match remove s n with Some s' => do_acts s' q | None => (s, false) end
  | ASignal :: q => do_acts (signal s) q
  end.

Section Loop.
(** [react n e]: what [prod] of [n] does, called after the events [e]; [None]: it raises *)
Variable react : nat -> list event -> option (nat * list act).

(** how a pass ends: with the sum, with an exception, or not within the turns looked at *)
Inductive result := Fin (s : looper) (sum : nat) | Exc (s : looper) | More (s : looper).
(** 142-153 [prodAllOnce]; the loop over the list goes by place, the list may change meanwhile *)
Fixpoint pass (fuel i : nat) (s : looper) (sum : nat) : result :=
  match nth_error (prodables s) i with
  | None => Fin s sum
  | Some n =>
      match fuel with
      | 0 => More s
      | S f =>
          let s1 := emit s [Prodded n] in
          match react n (events s) with
          | None => Exc s1
          | Some (c, l) => let (s2, ok) := do_acts s1 l in if ok then pass f (S i) s2 (sum + c) else Exc s2
          end
      end
  end.
Definition finish (r : result) : looper :=
  match r with Fin s _ => s | Exc s => set_task s Failed | More s => set_task s Busy end.
(** 222-227 [runForever], one turn of the while loop; 204-217 [runOnceNicely] *)
Definition turn (fuel : nat) (s : looper) : looper :=
  match run_fut s with
  | Live => if running s then finish (pass fuel 0 s 0) else set_task s Done
  | _ => s
  end.
(** 271-287 [shutdown]; [flight]: it is called while a pass is under way, which is modelled by the pass following the call;
    an exception of the task comes out of [await self.runFut], before [stopall] (313-318) *)
Definition stop_all (s : looper) : looper := emit s (map Stopped (prodables s)).
Definition shutdown (flight : bool) (fuel : nat) (s : looper) : looper :=
  let s := signal s in
  match run_fut s with
  | Live =>
      let s := if flight then finish (pass fuel 0 s 0) else s in
      match run_fut s with Live => stop_all (set_task s Done) | _ => s end
  | Busy => s
  | _ => stop_all s
  end.

Inductive op := OAdd (n : nat) | ORemove (n : nat) | ORemoveName (n : nat) | OSignal | OTurn (fuel : nat) | OShutdown (flight : bool) (fuel : nat).
(** a call that raises changes nothing *)
Definition step (s : looper) (o : op) : looper :=
  match o with
  | OAdd n => match add s n with Some s' => s' | None => s end
  | ORemove n => match remove s n with Some s' => s' | None => s end
  | ORemoveName n => remove_name s n
  | OSignal => signal s
  | OTurn f => turn f s
  | OShutdown b f => shutdown b f s
  end.
Definition run (s : looper) (os : list op) : looper := fold_left step os s.
End Loop.
