(** What is asked of the freezing of ledgers. *)
From Coq Require Import List Arith Bool.
From Verif Require Import Base Dict Audit_Model Freeze_Model.
Import ListNotations.

(** the ledgers of the core; others are plugins' *)
Definition core (lid : nat) : Prop := lid < 4.

(** The record [i] tells of a ledger with the transactions [t]: its size; its root, which may be left out when it
    is empty; and, if any, its state root. *)
Definition describes (root : list bytes -> bytes) (head : nat -> list bytes -> bytes) (lid : nat) (t : list bytes) (i : info) : Prop :=
  let '(r, st, n) := i in
  n = Some (length t) /\ (r = Some (root t) \/ r = None /\ t = []) /\ (st = None \/ st = Some (head lid t)).

(** the plugins' ledgers, before the first batch *)
Definition proper (g : dict (list bytes)) : Prop := NoDup (map fst g).

Definition reach (root : list bytes -> bytes) (head : nat -> list bytes -> bytes) (g : dict (list bytes)) (s : node) : Prop :=
  exists os, run root head (start g) os = Ok s.

(** each batch is committed before the next is applied *)
Definition one_by_one (bs : list (nat * list request)) : list op := flat_map (fun b => [Apply (fst b) (snd b); Commit]) bs.
