(** Model of plenum/common/router.py (Router, Subscription) and of the sending of plenum/common/event_bus.py: the buses by
    which the parts of a replica call each other.  Types of messages and handlers are numbers; a handler does what [beh]
    says, which may depend on everything that happened on the bus before (so handlers may have any state).  Simplified:
    one bus at a time for sending; handlers do not catch the exceptions of what they send; results of handlers are dropped
    (event_bus.py:8, 33 drop them). *)
From Coq Require Import List Arith Bool.
Import ListNotations.

(** *** router.py: [_handlers], a defaultdict of lists *)
Definition router := list (nat * list nat).
(** router.py:24-28 [handlers]; also the value of the defaultdict *)
Fixpoint handlers (r : router) (t : nat) : list nat :=
  match r with [] => [] | (u, l) :: q => if u =? t then l else handlers q t end.
Fixpoint put (r : router) (t : nat) (l : list nat) : router :=
  match r with [] => [(t, l)] | (u, k) :: q => if u =? t then (u, l) :: q else (u, k) :: put q t l end.
(** reading a defaultdict makes an entry *)
Definition touch (r : router) (t : nat) : router := put r t (handlers r t).
(** router.py:15-22 [message_types] *)
Definition message_types (r : router) : list nat := map fst (filter (fun p => 0 <? length (snd p)) r).
(** router.py:30-35 [subscribe] *)
Definition subscribe (r : router) (t h : nat) : router := put r t (handlers r t ++ [h]).
(** list.remove: the first one, or ValueError *)
Fixpoint remove_first (h : nat) (l : list nat) : option (list nat) :=
  match l with
  | [] => None
  | x :: q => if x =? h then Some q else match remove_first h q with Some q' => Some (x :: q') | None => None end
  end.
(** router.py:37-41 [unsubscribe]; [false]: ValueError *)
Definition unsubscribe (r : router) (t h : nat) : router * bool :=
  match remove_first h (handlers r t) with Some l => (put r t l, true) | None => (touch r t, false) end.

(** *** router.py:43-49 [_route], called by event_bus.py:7-8 and 32-33.  The comprehension walks over the list itself, not
    over a copy: [Route m i] is a walk that is to look at place i next *)
Record msg := Msg { ty : nat; body : nat }.
Inductive act := Send (m : msg) | Sub (t h : nat) | Unsub (t h : nat) | Raise.
(** what is to be done: a walk, or the rest of a handler *)
Inductive frame := Route (m : msg) (i : nat) | Acts (l : list act).
(** what happened; [Call d h m]: h was called with m, d sendings being under way around this one *)
Inductive event := Call (d h : nat) (m : msg) | Subd (t h : nat) | Unsubd (t h : nat).
Record bus := Bus { rt : router; stack : list frame; log : list event; failed : bool }.
Definition is_route (f : frame) : bool := match f with Route _ _ => true | _ => false end.
Definition routes (k : list frame) : nat := length (filter is_route k).

Section Handlers.
Variable beh : list event -> nat -> msg -> list act.
Definition step (s : bus) : bus :=
  match stack s with
  | [] => s
  | Route m i :: k =>
      match nth_error (handlers (rt s) (ty m)) i with
      | None => Bus (touch (rt s) (ty m)) k (log s) (failed s)
      | Some h => Bus (touch (rt s) (ty m)) (Acts (beh (log s) h m) :: Route m (S i) :: k) (log s ++ [Call (routes k) h m]) (failed s)
      end
  | Acts [] :: k => Bus (rt s) k (log s) (failed s)
  | Acts (Send m :: l) :: k => Bus (rt s) (Route m 0 :: Acts l :: k) (log s) (failed s)
  | Acts (Sub t h :: l) :: k => Bus (subscribe (rt s) t h) (Acts l :: k) (log s ++ [Subd t h]) (failed s)
  | Acts (Unsub t h :: l) :: k =>
      let (r, ok) := unsubscribe (rt s) t h in
      if ok then Bus r (Acts l :: k) (log s ++ [Unsubd t h]) (failed s) else Bus r [] (log s) true
  | Acts (Raise :: _) :: _ => Bus (rt s) [] (log s) true
  end.
Fixpoint run (n : nat) (s : bus) : bus := match n with 0 => s | S n => run n (step s) end.
End Handlers.
(** event_bus.py:7-8, 32-33: [m] is sent on an idle bus *)
Definition send (r : router) (past : list event) (m : msg) : bus := Bus r [Route m 0] past false.

(** *** router.py:52-69 Subscription; routers have numbers *)
Definition sid := (nat * nat * nat)%type.
Definition routers := nat -> router.
Definition upd (rs : routers) (i : nat) (r : router) : routers := fun j => if i =? j then r else rs j.
(** router.py:56-61 *)
Definition sub_subscribe (rs : routers) (sids : list sid) (i t h : nat) : routers * list sid :=
  (upd rs i (subscribe (rs i) t h), sids ++ [(i, t, h)]).
Fixpoint undo (rs : routers) (sids : list sid) : routers * bool :=
  match sids with
  | [] => (rs, true)
  | (i, t, h) :: q =>
      let (r, ok) := unsubscribe (rs i) t h in if ok then undo (upd rs i r) q else (upd rs i r, false)
  end.
(** router.py:63-69 [unsubscribe_all]; the subscriptions are cleared only when no exception was raised *)
Definition unsubscribe_all (rs : routers) (sids : list sid) : routers * list sid * bool :=
  let (rs', ok) := undo rs sids in (rs', if ok then [] else sids, ok).
