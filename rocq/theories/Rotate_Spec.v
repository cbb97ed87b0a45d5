(** What is found in the log files, and what was logged. *)
From Coq Require Import List Arith Bool.
From Verif Require Import Rotate_Model.
Import ListNotations.

(** What a rotated file holds: as it is if it is there, else what was compressed *)
Definition contents (f : file) : option (list line) :=
  match plain f with Some c => Some c | None => match packed f with Some c => c | None => None end end.
Definition text (f : file) : list line := match contents f with Some c => c | None => [] end.
(** all files, in the order of their numbers, and the current one *)
Definition log (d : dir) : list line := concat (map text (files d)) ++ base d.
(** what was logged *)
Definition written (h : list op) : list line := flat_map (fun o => match o with Emit l => [l] | _ => [] end) h.
