(** Specification of the stashing router, over what happened (the log) alone. *)
From Coq Require Import List Arith ZArith Bool.
From Verif Require Import Stash_Model.
Import ListNotations.
Local Open Scope Z_scope.

(** where a message is, by the last thing that happened to it *)
Inductive place := New | Calling | Processed | Discarded | Stashed (c : Z) | Rejected | Failed | Taken | InInbox.
Definition about (x : entry) : msg * place :=
  match x with
  | LOffer m => (m, New) | LCall m _ => (m, Calling) | LDone m => (m, Processed) | LDiscard m => (m, Discarded)
  | LStash m c => (m, Stashed c) | LReject m _ => (m, Rejected) | LRaise m => (m, Failed) | LTake m _ => (m, Taken)
  | LInbox m => (m, InInbox)
  end.
Definition place_of (l : list entry) (id : nat) : option place :=
  fold_left (fun p x => if (m_id (fst (about x)) =? id)%nat then Some (snd (about x)) else p) l None.

(** what the queue with code [c] should hold: the messages stashed with that code and not taken
    out since, in the order in which they were stashed or, for a sorted queue, in the order of
    their keys and of stashing for equal keys *)
Definition expected (cf : config) (c : Z) (l : list entry) : list msg :=
  fold_left (fun q x => match x with
    | LStash m c' => if c' =? c then if sorted_code cf c then insert m q else q ++ [m] else q
    | LTake m c' => if c' =? c then filter (fun y => negb (m_id y =? m_id m)%nat) q else q
    | _ => q end) l [].

(** What is claimed of an entry that comes after [l] in the log. *)
Definition entry_ok (cf : config) (l : list entry) (x : entry) : Prop :=
  match x with
  | LOffer m => place_of l (m_id m) = None
  | LCall m h => In (LOffer m) l /\
      (place_of l (m_id m) = Some New /\ h = m_handler m \/ place_of l (m_id m) = Some Taken /\ h = 0%nat)
  | LDone m | LDiscard m | LRaise m => In (LOffer m) l /\ place_of l (m_id m) = Some Calling
  | LStash m c => In (LOffer m) l /\ place_of l (m_id m) = Some Calling /\ (length (expected cf c l) < limit cf)%nat
  | LReject m c => In (LOffer m) l /\ place_of l (m_id m) = Some Calling /\ (limit cf <= length (expected cf c l))%nat
  | LTake m c => exists q, expected cf c l = m :: q
  | LInbox m => In (LOffer m) l /\ place_of l (m_id m) = Some Taken /\ has_unstash cf = true
  end.
Definition log_ok (cf : config) (l : list entry) : Prop := forall l1 x l2, l = l1 ++ x :: l2 -> entry_ok cf l1 x.
