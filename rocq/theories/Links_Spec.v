(** What is claimed of the node's view of its connections, without the model's functions (C87). *)
From Coq Require Import List Arith Bool.
From Verif Require Import Links_Model.
Import ListNotations.

(** the status a node should have: [c] nodes reachable (itself among them) of [n], [f] of which may fail *)
Definition status_of (c n : nat) : status :=
  let f := (n - 1) / 3 in
  if c =? n then Started else if 2 * f + 1 <=? c then StartedHungry else Starting.

(** no operation changes the size of the pool from [k] *)
Definition pool_size_kept (k : nat) (os : list op) : Prop := forall l, In (Pool l) os -> length l = k.
(** connections are sets *)
Definition sets (os : list op) : Prop := forall c, In (Conns c) os -> NoDup c.
Definition same_set (a b : list nat) : Prop := forall x, In x a <-> In x b.

(** the events about [x] come one of each in turn, beginning with [Connected]; [up]: the last one was [Connected] *)
Fixpoint alternate (x : nat) (up : bool) (evs : list event) : Prop :=
  match evs with
  | [] => True
  | Connected y :: r => if x =? y then up = false /\ alternate x true r else alternate x up r
  | Disconnected y :: r => if x =? y then up = true /\ alternate x false r else alternate x up r
  end.
(** what follows from the events: [x] is connected *)
Definition believed (x : nat) (evs : list event) : bool :=
  fold_left (fun b e => match e with Connected y => if x =? y then true else b | Disconnected y => if x =? y then false else b end) evs false.

(** the same for the watcher's calls *)
Definition linked (x : nat) (os : list wop) : bool :=
  fold_left (fun b o => match o with WConnect y => if x =? y then true else b | WDisconnect y => if x =? y then false else b | WNodes _ => b end) os false.
Definition no_pool_change (os : list wop) : Prop := forall l, ~ In (WNodes l) os.
(** a chain of changes from [a] to [b], each a change *)
Fixpoint chain (a : status) (l : list (status * status)) (b : status) : Prop :=
  match l with [] => a = b | (x, y) :: r => x = a /\ x <> y /\ chain y r b end.
