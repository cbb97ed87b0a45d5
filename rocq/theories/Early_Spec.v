(** What is claimed of Pre-Prepares that come too early (C93). *)
From Coq Require Import List Arith Bool.
From Verif Require Import Early_Model.
Import ListNotations.

(** is [p] kept for later? *)
Definition kept (s : rep) (p : pp) : Prop := In p (map fst (pend s)) \/ In p (map snd (prev s)).
(** what came *)
Definition came (os : list op) (p : pp) : Prop := In (Receive p) os.
(** a correct primary sends [P 1], [P 2] and so on, each valid after those before *)
Definition correct (valid : list pp -> pp -> bool) (P : nat -> pp) : Prop :=
  (forall n, p_seq (P n) = n) /\ (forall n, valid (map P (seq 1 n)) (P (S n)) = true).
Definition only_from (P : nat -> pp) (os : list op) : Prop := forall p, came os p -> p = P (p_seq p).
Definition nothing_forgotten (os : list op) : Prop := forall r, ~ In (Forget r) os.
