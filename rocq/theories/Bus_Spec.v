(** What a user of a bus relies on (C103), in terms of what happened on it. *)
From Coq Require Import List Arith.
From Verif Require Import Bus_Model.
Import ListNotations.

(** who was called at level d, with what, in order *)
Fixpoint called (d : nat) (l : list event) : list (nat * msg) :=
  match l with
  | [] => []
  | Call e h m :: q => if e =? d then (h, m) :: called d q else called d q
  | _ :: q => called d q
  end.
(** no call for a message sent further out *)
Definition deeper (d : nat) (l : list event) : Prop := forall e h m, In (Call e h m) l -> d <= e.
(** nobody subscribed to the type or unsubscribed from it *)
Definition untouched (t : nat) (l : list event) : Prop :=
  forall h, ~ In (Subd t h) l /\ ~ In (Unsubd t h) l.
(** how often a handler was subscribed and unsubscribed *)
Fixpoint subs (t h : nat) (l : list event) : nat :=
  match l with [] => 0 | Subd u g :: q => (if (u =? t) && (g =? h) then 1 else 0) + subs t h q | _ :: q => subs t h q end%bool.
Fixpoint unsubs (t h : nat) (l : list event) : nat :=
  match l with [] => 0 | Unsubd u g :: q => (if (u =? t) && (g =? h) then 1 else 0) + unsubs t h q | _ :: q => unsubs t h q end%bool.
(** how often a subscription object holds a subscription *)
Definition sid_dec : forall a b : sid, {a = b} + {a <> b}.
Proof. repeat decide equality. Defined.
Definition held (sids : list sid) (i t h : nat) : nat := count_occ sid_dec sids (i, t, h).
Definition times (r : router) (t h : nat) : nat := count_occ Nat.eq_dec (handlers r t) h.
