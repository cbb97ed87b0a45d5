(** What the queue of messages to clients is to do, in terms of what was handed to it and what left it. *)
From Coq Require Import List Arith Bool Sorted.
Import ListNotations.
From Verif Require Import ClientMsg_Model.

(** what a history hands over for client [i], with the times, when it starts at time [t] *)
Fixpoint given (t i : nat) (os : list op) : list (nat * nat) :=
  match os with
  | [] => []
  | Give j m :: os' => if j =? i then (t, m) :: given t i os' else given t i os'
  | Tick d :: os' => given (t + d) i os'
  | _ :: os' => given t i os'
  end.
(** all that is handed over, and to whom *)
Fixpoint all_given (os : list op) : list (nat * nat) :=
  match os with [] => [] | Give j m :: os' => (j, m) :: all_given os' | _ :: os' => all_given os' end.

(** what has left the queue of client [i], in the order in which it left *)
Definition gone (i : nat) (es : list event) : list (nat * nat) := map ev_msg (filter (fun e => ev_client e =? i) es).
(** what the socket was given for client [i], in that order *)
Definition is_sent (e : event) : bool := match ev_why e with Sent => true | _ => false end.
Definition sent (i : nat) (es : list event) : list (nat * nat) := map ev_msg (filter (fun e => (ev_client e =? i) && is_sent e) es).

(** while a call walks over a client's list, a client that cannot be reached stays so *)
Definition steady (net : nat -> nat -> nat -> outcome) : Prop :=
  forall p i k k', k <= k' -> net p i k = Retry -> net p i k' = Retry.
