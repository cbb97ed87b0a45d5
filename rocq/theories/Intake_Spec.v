(** Specification for C79: which messages could stop a node. *)
From Coq Require Import Ascii String List Arith Bool ZArith.
From Verif Require Import Schema_Model Schema_Spec Intake_Model.
Import ListNotations.

(** Neither a dict nor something in which "op" can be looked for without being found *)
Definition odd_shape (v : value) : Prop :=
  match v with
  | VDict _ => False
  | VStr x => exists a b, x = a ++ s "op" ++ b
  | VList l => In (VStr (s "op")) l
  | _ => True
  end.
(** A non-empty list or string *)
Definition no_dict (v : value) : Prop := (forall d, v <> VDict d) /\ truthy v = true.
(** No author is given, and the signatures are something, but no dict. *)
Definition bad_signatures (d : dict) : Prop :=
  ~ non_empty "identifier" d /\ exists w, find (s "signatures") d = Some w /\ truthy w = true /\ forall m, w <> VDict m.
(** It has an operation, a number and an author: it is taken for a request. *)
Definition request_like (d : dict) : Prop :=
  non_empty "operation" d /\ non_empty "reqId" d /\ (non_empty "identifier" d \/
    exists m, find (s "signatures") d = Some (VDict m) /\ join (map fst m) <> []).
Definition has_op (x : string) (d : dict) : Prop := find (s "op") d = Some (VStr (s x)).

(** What comes of it *)
Definition outs (f : fate) : list out := match f with GoesOn o | Stops o => o end.
