(** What is claimed of a client's records (C91). *)
From Coq Require Import List Arith NArith Bool.
From Verif Require Import ClientStore_Model.
Import ListNotations.

(** what was added: for whose request, which, what *)
Notation history := (list (text * N * item)).
Definition text_dec : forall a b : text, {a = b} + {a <> b} := list_eq_dec Nat.eq_dec.
Definition about (idr : text) (id : N) (h : history) : list item :=
  flat_map (fun e => let '(i, n, x) := e in if text_dec i idr then if N.eq_dec n id then [x] else [] else []) h.
(** the last value told by [s], and who told one *)
Fixpoint last_of (s : text) (l : list (text * text)) : option text :=
  match l with [] => None | (s', v) :: r => match last_of s r with Some w => Some w | None => if text_dec s s' then Some v else None end end.
Definition acks (l : list item) : list text := flat_map (fun i => match i with Ack s => [s] | _ => [] end) l.
Definition nacks (l : list item) : list (text * text) := flat_map (fun i => match i with Nack s r => [(s, r)] | _ => [] end) l.
Definition rejects (l : list item) : list (text * text) := flat_map (fun i => match i with Reject s r => [(s, r)] | _ => [] end) l.
Definition replies (l : list item) : list (text * text) := flat_map (fun i => match i with Reply s r => [(s, r)] | _ => [] end) l.
Definition requests (l : list item) : list text := flat_map (fun i => match i with Request t => [t] | _ => [] end) l.
(** a dictionary says of every sender what was told last, and of each once *)
Definition tells (d : list (text * text)) (l : list (text * text)) : Prop :=
  NoDup (map fst d) /\ forall s v, In (s, v) d <-> last_of s l = Some v.

(** lines of text *)
Definition one_line (breaks : nat -> bool) (t : text) : Prop := forall c, In c t -> breaks c = false.
Definition clean (breaks : nat -> bool) (i : item) : Prop :=
  match i with
  | Request t => one_line breaks t
  | Ack s => one_line breaks s
  | Nack s r | Reject s r | Reply s r => one_line breaks s /\ one_line breaks r /\ ~ In tilde s
  end.
(** line ends are where lines break, and none of the marks is *)
Definition usual (breaks : nat -> bool) : Prop := breaks newline = true /\ forall c, In c [tilde; 48; 65; 78; 74; 82] -> breaks c = false.
Definition stored (h : history) : list (text * text) := fold_left (fun fs e => let '(i, n, x) := e in add_item fs i n x) h [].
