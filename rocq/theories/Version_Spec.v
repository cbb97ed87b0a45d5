(** What is asked of version strings (C110). *)
From Coq Require Import Ascii Decimal List Arith Bool.
From Verif Require Import Version_Model.
Import ListNotations.
Open Scope char_scope.

(** a non-empty run of digits that stands for [n]; zeroes may come first *)
Definition spells (t : text) (n : nat) : Prop := exists u, u <> Nil /\ t = digits u /\ Nat.of_uint u = n.
(** N.N.N[[.]{a|b|rc|dev}[.]N] *)
Definition form (s : text) (v : version) : Prop :=
  exists a b c e, spells a (major v) /\ spells b (minor v) /\ spells c (patch v) /\ s = a ++ "." :: b ++ "." :: c ++ e /\
  match pre v with
  | None => e = []
  | Some (p, n) => exists d1 d2 t, (d1 = [] \/ d1 = ["."]) /\ (d2 = [] \/ d2 = ["."]) /\ spells t n /\ e = d1 ++ phase_name p ++ d2 ++ t
  end.
(** nothing but digits and dots *)
Definition digits_and_dots (s : text) : Prop := forall c, In c s -> c = "." \/ In c ["0"; "1"; "2"; "3"; "4"; "5"; "6"; "7"; "8"; "9"].
