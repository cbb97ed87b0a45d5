(** What reading from the sockets is to do. *)
From Coq Require Import List Arith Bool.
Import ListNotations.
From Verif Require Import Dict Wire_Model.

Section Spec.
  Variable key_utf8 : nat -> bool.
  Variable len_limit : nat.
  (** the messages in what a socket gives: one part that is not empty *)
  Definition real (f : frame) : list (msg * nat) :=
    match f with Parts k [m] => if m_len m =? 0 then [] else [(m, k)] | _ => [] end.
  Definition reals (fs : list frame) : list (msg * nat) := flat_map real fs.
  (** those to be accepted, and those to be reported as rejected *)
  Definition fine (x : msg * nat) : bool := key_utf8 (snd x) && ((m_len (fst x) <=? len_limit) && m_utf8 (fst x)).
  Definition bad (x : msg * nat) : bool := key_utf8 (snd x) && negb ((m_len (fst x) <=? len_limit) && m_utf8 (fst x)).
  Definition accepted (fs : list frame) : list (msg * nat) := filter fine (reals fs).
  Definition reports (fs : list frame) : list (nat * nat) := map (fun x => (snd x, m_id (fst x))) (filter bad (reals fs)).
End Spec.
Definition bytes (l : list (msg * nat)) : nat := fold_right (fun x n => m_len (fst x) + n) 0 l.

(** what arrived at the listener in a history *)
Definition arrivals (os : list op) : list frame := flat_map (fun o => match o with Arrive f => [f] | _ => [] end) os.
(** the part of a sequence that comes from one sender *)
Definition of_sender {A} (k : nat) (f : A -> nat) (l : list A) : list A := filter (fun x => f x =? k) l.
