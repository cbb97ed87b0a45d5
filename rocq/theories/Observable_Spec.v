(** What is said of observers, in terms of what happened. *)
From Coq Require Import List Arith.
From Verif Require Import Observable_Model.
Import ListNotations.

(** how often [x] was added more often than removed *)
Fixpoint times (x c : nat) (h : list op) : nat :=
  match h with
  | [] => c
  | Add y true :: h => times x (if x =? y then S c else c) h
  | Remove y :: h => times x (if x =? y then c - 1 else c) h
  | _ :: h => times x c h
  end.
Definition observes (h : list op) (x : nat) : Prop := 0 < times x 0 h.
(** the name under which the remote [r] is there *)
Fixpoint name_of (r : nat) (c : option nat) (h : list op) : option nat :=
  match h with
  | [] => c
  | Connect q n :: h => name_of r (if r =? q then Some n else c) h
  | Disconnect q :: h => name_of r (if r =? q then None else c) h
  | _ :: h => name_of r c h
  end.
Definition there (h : list op) (r n : nat) : Prop := name_of r None h = Some n.
(** the batches that were committed with all their requests known *)
Definition committed (h : list op) : list nat := flat_map (fun o => match o with Commit b true => [b] | _ => [] end) h.
(** leaving out some of the members *)
Inductive part {A} : list A -> list A -> Prop :=
| part_nil : part [] []
| part_keep x l l' : part l l' -> part (x :: l) (x :: l')
| part_skip x l l' : part l l' -> part l (x :: l').
