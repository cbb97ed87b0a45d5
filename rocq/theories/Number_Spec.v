(** What is asked of the numbers of batches in backup instances. *)
From Coq Require Import List Arith Bool.
From Verif Require Import Base Dict Number_Model.
Import ListNotations.

(** the PrePrepares that the node sent as the primary of instance [i]: view and number, in order *)
Definition sent (i : nat) (es : list event) : list (nat * nat) :=
  flat_map (fun e => match e with Sent j v n => if j =? i then [(v, n)] else [] | _ => [] end) es.

(** the view of the last batch of the audit ledger *)
Definition aud (s : node) : nat := match audit s with Some a => a | None => 0 end.

(** What others do sensibly: view changes go to views that are new for the node and its audit ledger (C26); batches
    are committed of views not older than those committed before, and not newer than the present one; a NewView is
    accepted for the view change under way, if the node is still in its view; a catch-up adds to the audit ledger, and
    leaves it empty only in view 0; an instance does not lag behind the batches of which this node is the primary. *)
Definition sensible (am_primary : nat -> nat -> bool) (s : node) (o : op) : Prop :=
  match o with
  | StartVC v => view s < v /\ aud s < v
  | Commit v => aud s <= v <= view s
  | NewView => target s = Some (view s)
  | Catchup (Some a) => aud s <= a
  | Catchup None => audit s = None -> view s = 0
  | Adjust i _ | Setup i _ => am_primary i (view s) = false
  | _ => True
  end.

Section Hist.
  Variable insts : list nat.
  Variable am_primary : nat -> nat -> bool.
  Variable mif : option nat.
  (** [P] holds of every operation of the history, with the node it is done at and what happened before *)
  Definition throughout (os : list op) (P : node -> list event -> op -> Prop) : Prop :=
    forall p o q, os = p ++ o :: q ->
      P (fst (run insts am_primary mif (init insts am_primary) p)) (snd (run insts am_primary mif (init insts am_primary) p)) o.

  (** the audit ledger has a batch, and the numbers of instance [i] in the view of the last one are on disk *)
  Definition remembered (i : nat) (s : node) (es : list event) : Prop :=
    forall n, In (aud s, n) (sent i es) ->
      audit s <> None /\ exists d v m, store s = Some d /\ get i d = Some (v, m) /\ n <= m.

  (** the view in which a catch-up leaves the node *)
  Definition view_after (s : node) (a : option nat) : nat :=
    match a with Some v => v | None => match audit s with Some v => v | None => view s end end.
  (** no catch-up moves instance [i] from one view to another, but from the start; and what is on disk is of the view
      reached *)
  Definition steady (i : nat) (s : node) (o : op) : Prop :=
    match o with
    | Catchup a =>
      (view_after s a = view s \/ forall r, get i (reps s) = Some r -> last_pp r = 0) /\
      (forall d v m, store s = Some d -> get i d = Some (v, m) -> v = view_after s a)
    | _ => True
    end.
End Hist.
