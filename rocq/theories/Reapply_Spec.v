(** What is said of the batches that are applied again after a NewView. *)
From Coq Require Import List Arith.
From Verif Require Import Reapply_Model.
Import ListNotations.

(** The replica when the NewView is accepted: nothing was done in this view; every batch that is held from earlier views is held under its
    own original view, number and digest. *)
Definition fresh (s : rep) : Prop :=
  pps s = [] /\ tss s = [] /\ prev s = [] /\ bad_time s = [] /\ applied s = [] /\ blamed s = [] /\ asked s = [] /\ taken s = [] /\
  forall k p, In (k, p) (old s) -> k = (p_orig p, p_seq p, p_digest p).
(** [p] is the batch that [b] names, whatever the view in which it was prepared last. *)
Definition named (b : bid) (p : pp) : Prop := p_orig p = b_pview b /\ p_seq p = b_seq b /\ p_digest p = b_digest b.
Definition holds (s : rep) (b : bid) (p : pp) : Prop := In ((b_pview b, b_seq b, b_digest b), p) (old s).
(** [p] as a batch of view [v] *)
Definition in_view (v : nat) (p q : pp) : Prop :=
  p_view q = v /\ p_orig q = p_orig p /\ p_seq q = p_seq p /\ p_time q = p_time p /\ p_reqs q = p_reqs p /\ p_digest q = p_digest p /\
  p_rest q = p_rest p.

(** Batches that can be applied one after the other by a replica that ordered [o] batches, whose last batch is of the time [t], at the time [now]:
    numbers in a row, times that do not go back and are not too far away, digests and outcomes as claimed. *)
Section Good.
Variable digest_of : nat -> nat -> nat -> nat.
Variable valid : list pp -> pp -> bool.
Variable dev : nat.
Definition near (a b : nat) : Prop := a <= b + dev /\ b <= a + dev.
Fixpoint good_chain (now o t : nat) (done : list pp) (l : list pp) : Prop :=
  match l with
  | [] => True
  | p :: r =>
    (o < p_seq p -> t <= p_time p /\ near (p_time p) now /\ digest_of (p_orig p) (p_time p) (p_reqs p) = p_digest p /\ valid done p = true) /\
    good_chain now o (p_time p) (if o <? p_seq p then done ++ [p] else done) r
  end.
End Good.
