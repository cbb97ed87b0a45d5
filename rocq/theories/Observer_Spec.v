(** What users expect of an observer of committed batches (C65). *)
From Coq Require Import List Arith.
From Verif Require Import Observer_Model.
Import ListNotations.

(** the batches follow each other without gap or overlap *)
Fixpoint follow (l : list batch) : Prop :=
  match l with b :: ((c :: _) as l') => b_start c = b_end b + 1 /\ follow l' | _ => True end.
(** transactions are numbered from 1 *)
Definition numbered (ms : list (batch * node)) : Prop := forall b s, In (b, s) ms -> 1 <= b_start b <= b_end b.
(** [k] different senders sent the batch *)
Definition sent_by (k : nat) (ms : list (batch * node)) (b : batch) : Prop :=
  exists ss, NoDup ss /\ k <= length ss /\ forall s, In s ss -> In (b, s) ms.
(** the messages tell of one history: those with the same first number are the same, others do not overlap *)
Definition one_history (ms : list (batch * node)) : Prop :=
  forall b s c t, In (b, s) ms -> In (c, t) ms -> (b_start b = b_start c -> b = c) /\ (b_start b < b_start c -> b_end b < b_start c).
(** [l] continues what has been applied up to [last] *)
Definition continues (last : nat) (l : list batch) : Prop := follow l /\ match l with [] => True | b :: _ => b_start b = last + 1 end.
