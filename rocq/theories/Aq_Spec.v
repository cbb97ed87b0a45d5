(** What is to be run, told from what was asked for, cancelled and run. *)
From Coq Require Import List Arith Bool.
Import ListNotations.
From Verif Require Import Aq_Model.

(** id, what, when ([None]: at once) *)
Notation wish := (nat * key * option nat)%type.
Definition pending (tr : list event) : list wish :=
  fold_left (fun p e =>
    match e with
    | Asked i k due => p ++ [(i, k, due)]
    | CancelledAll k => filter (fun x => negb (key_eqb (snd (fst x)) k)) p
    | CancelledId i | Ran i _ => filter (fun x => negb (fst (fst x) =? i)) p
    end) tr [].
(** The time has come, or no time was given. *)
Definition is_due (t : nat) (due : option nat) : Prop := match due with None => True | Some n => n < t end.
(** What is run was asked for, was not cancelled, is due, and was not run before. *)
Definition justified (tr : list event) : Prop :=
  forall p i t q, tr = p ++ Ran i t :: q -> exists k due, In (i, k, due) (pending p) /\ is_due t due /\
    (forall t', ~ In (Ran i t') q) /\ forall t', ~ In (Ran i t') p.

(** Commands that leave the repetition of an action alone and raise nothing. *)
Definition calm (a0 : nat) (c : cmd) : Prop :=
  match c with Schedule _ _ | CancelAll _ | Start _ _ | Wait _ => True | Stop a strict => a <> a0 /\ strict = false | CancelId _ | Raise => False end.
Definition calm_op (a0 : nat) (o : op) : Prop := match o with Do c => calm a0 c | Service _ => True end.
Definition repeats (a0 : nat) (k : key) : bool := match k with Wrap _ a _ => a =? a0 | Plain _ => false end.
