(** Model of plenum/common/stashing_router.py: StashingRouter with its two kinds of queues. *)
From Coq Require Import List Arith ZArith Bool.
Import ListNotations.
Local Open Scope Z_scope.

(** A message as one subscription of the router receives it: [m_id] numbers the deliveries (the
    code has no such number, it only serves to tell messages apart), [m_handler] is the position
    of the subscription among those of the message's type, [m_key] the value of the key function
    given to [set_sorted_stasher]. *)
Record msg := Msg { m_id : nat; m_handler : nat; m_key : Z }.

(** What happened, for the statements only. *)
Inductive entry :=
| LOffer (m : msg)                 (* the message arrives from a bus *)
| LCall (m : msg) (h : nat)        (* handler [h] of its type is called with it *)
| LDone (m : msg) | LDiscard (m : msg) | LStash (m : msg) (c : Z) | LReject (m : msg) (c : Z)
| LRaise (m : msg)                 (* the handler raised an exception *)
| LTake (m : msg) (c : Z)          (* taken out of the queue with code [c] *)
| LInbox (m : msg).                (* given to [unstash_handler] *)

(** What a handler does when it is called: it may send messages which come back to the router and
    unstash messages, then it returns a code (None, or the first component of the pair) or raises. *)
Inductive act :=
| AOffer (h : nat) (key : Z)
| AAll (c : option Z)              (* process_all_stashed *)
| AUntil (c : option Z).           (* process_stashed_until_first_restash *)
Inductive verdict := VReturn (code : option Z) | VRaise.

Inductive status := Running | Raised | OutOfScript.
(** [script]: what the next handler calls will do.  The theorems are for every script, so for
    every behaviour of the handlers, which may depend on anything.  When it is used up the
    execution stops in the middle. *)
Record state := State {
  queues : list (Z * list msg); next : nat; script : list (list act * verdict); st : status; log : list entry }.

(** [limit]: size of each queue; [sorted_code]: the codes given to [set_sorted_stasher] (108-109,
    called before any message arrives); [has_unstash]: an [unstash_handler] was given (96-104). *)
Record config := Config { limit : nat; sorted_code : Z -> bool; has_unstash : bool }.

Definition note (x : entry) (s : state) : state := State (queues s) (next s) (script s) (st s) (log s ++ [x]).
Definition is_running (s : state) : bool := match st s with Running => true | _ => false end.

(** self._queues.get(code); an absent queue behaves like an empty one *)
Fixpoint get (c : Z) (q : list (Z * list msg)) : list msg :=
  match q with [] => [] | (c', l) :: q' => if c =? c' then l else get c q' end.
Fixpoint put (c : Z) (l : list msg) (q : list (Z * list msg)) : list (Z * list msg) :=
  match q with [] => [(c, l)] | (c', l') :: q' => if c =? c' then (c, l) :: q' else (c', l') :: put c l q' end.
Definition with_queue (c : Z) (l : list msg) (s : state) : state :=
  State (put c l (queues s)) (next s) (script s) (st s) (log s).

(** SortedListWithKey.add: behind the equal keys *)
Fixpoint insert (m : msg) (l : list msg) : list msg :=
  match l with [] => [m] | x :: l' => if m_key m <? m_key x then m :: l else x :: insert m l' end.

(** 199-207 [_stash] with 51-55 and 78-82 [push] *)
Definition stash (cf : config) (c : Z) (m : msg) (s : state) : state :=
  let q := get c (queues s) in
  if (limit cf <=? length q)%nat then note (LReject m c) (with_queue c q s)
  else note (LStash m c) (with_queue c (if sorted_code cf c then insert m q else q ++ [m]) s).

(** 187-197 [_resolve_and_process], [_unstash]: the result is "go on" of
    [process_stashed_until_first_restash] (with an unstash handler [_unstash] returns None).
    [proc] is [_process]; a stashed message goes to the first handler of its type.  Messages of
    a type that has lost its subscriptions meanwhile (189-190) are not modelled. *)
Definition unstash (cf : config) (proc : nat -> msg -> state -> state * bool) (m : msg) (s : state) : state * bool :=
  if has_unstash cf then (note (LInbox m) s, false) else proc 0%nat m s.

(** 139-140 the loop over the messages taken out *)
Fixpoint unstash_list (cf : config) (proc : nat -> msg -> state -> state * bool) (l : list msg) (s : state) : state :=
  match l with
  | [] => s
  | m :: l' => if is_running s then unstash_list cf proc l' (fst (unstash cf proc m s)) else s
  end.

(** 133-140 [process_all_stashed] with a code *)
Definition all_code (cf : config) (proc : nat -> msg -> state -> state * bool) (c : Z) (s : state) : state :=
  match get c (queues s) with
  | [] => s
  | data =>
      let s1 := with_queue c [] s in
      unstash_list cf proc data
        (State (queues s1) (next s1) (script s1) (st s1) (log s1 ++ map (fun m => LTake m c) data))
  end.

(** 154-158 [process_stashed_until_first_restash] with a code; [fuel] bounds the rounds of the
    loop: each but the last uses up an element of the script. *)
Fixpoint until_code (cf : config) (proc : nat -> msg -> state -> state * bool) (fuel : nat) (c : Z) (s : state) : state :=
  match fuel with
  | O => State (queues s) (next s) (script s) OutOfScript (log s)
  | S fuel' =>
      if is_running s then
        match get c (queues s) with
        | [] => s
        | m :: q =>
            let (s1, go) := unstash cf proc m (note (LTake m c) (with_queue c q s)) in
            if go then until_code cf proc fuel' c s1 else s1
        end
      else s
  end.

(** sorted(self._queues.keys()) *)
Fixpoint insert_z (z : Z) (l : list Z) : list Z :=
  match l with [] => [z] | x :: l' => if z <=? x then z :: l else x :: insert_z z l' end.
Definition codes (s : state) : list Z := fold_right insert_z [] (map fst (queues s)).
(** 128-131, 149-152 *)
Fixpoint each_code (f : Z -> state -> state) (l : list Z) (s : state) : state :=
  match l with [] => s | c :: l' => if is_running s then each_code f l' (f c s) else s end.
Definition for_codes (f : Z -> state -> state) (c : option Z) (s : state) : state :=
  match c with Some c => f c s | None => each_code f (codes s) s end.

Definition do_act (cf : config) (proc : nat -> msg -> state -> state * bool) (fuel : nat) (a : act) (s : state) : state :=
  if is_running s then
    match a with
    | AOffer h key =>
        let m := Msg (next s) h key in
        fst (proc h m (State (queues s) (S (next s)) (script s) (st s) (log s ++ [LOffer m])))
    | AAll c => for_codes (all_code cf proc) c s
    | AUntil c => for_codes (until_code cf proc fuel) c s
    end
  else s.
Definition do_acts (cf : config) (proc : nat -> msg -> state -> state * bool) (fuel : nat) (l : list act) (s : state) : state :=
  fold_left (fun s a => do_act cf proc fuel a s) l s.

(** 167-185 [_process].  [fuel] bounds the depth of nested calls: each uses up an element of the
    script. *)
Fixpoint process (cf : config) (fuel : nat) (h : nat) (m : msg) (s : state) : state * bool :=
  match fuel, script s with
  | S fuel', (acts, v) :: sc =>
      let s1 := do_acts cf (process cf fuel') (S fuel') acts (State (queues s) (next s) sc (st s) (log s ++ [LCall m h])) in
      if is_running s1 then
        match v with
        | VRaise => (State (queues s1) (next s1) (script s1) Raised (log s1 ++ [LRaise m]), false)
        | VReturn None => (note (LDone m) s1, true)
        | VReturn (Some c) =>
            if c =? 0 then (note (LDone m) s1, true)
            else if c =? -1 then (note (LDiscard m) s1, true)
            else (stash cf c m s1, false)
        end
      else (s1, false)
  | _, _ => (State (queues s) (next s) (script s) OutOfScript (log s), false)
  end.

(** A call from outside; an exception ends it. *)
Definition step (cf : config) (s : state) (a : act) : state :=
  let n := S (length (script s)) in
  let s1 := do_act cf (process cf n) n a s in
  match st s1 with Raised => State (queues s1) (next s1) (script s1) Running (log s1) | _ => s1 end.
Definition init (script : list (list act * verdict)) : state := State [] 0 script Running [].
Definition run (cf : config) (script : list (list act * verdict)) (ops : list act) : state :=
  fold_left (step cf) ops (init script).
