(** What the node and its replicas rely on (C104). *)
From Coq Require Import List Arith.
From Verif Require Import Drain_Model.
Import ListNotations.

(** what was taken from the box of a replica, and what was put into it, in order *)
Fixpoint outs (i : nat) (l : list event) : list nat :=
  match l with [] => [] | Out j m :: q => if j =? i then m :: outs i q else outs i q | _ :: q => outs i q end.
Fixpoint puts (i : nat) (l : list event) : list nat :=
  match l with [] => [] | Put j m :: q => if j =? i then m :: puts i q else puts i q | _ :: q => puts i q end.
Fixpoint all_outs (l : list event) : nat :=
  match l with [] => 0 | Out _ _ :: q => S (all_outs q) | _ :: q => all_outs q end.
(** at least the messages that were there, or as many as a replica may hand out *)
Definition at_least (per : option nat) (n : nat) : nat := match per with None => n | Some p => Nat.min p n end.
Definition at_most (per : option nat) (n : nat) : Prop := match per with None => True | Some p => n <= p end.
