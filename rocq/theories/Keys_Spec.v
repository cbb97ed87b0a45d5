(** Who is a validator, and with which key, by the ledger alone (C105). *)
From Coq Require Import List Arith Bool.
From Verif Require Import Keys_Model.
Import ListNotations.

(** the NODE transactions of a history *)
Fixpoint txns (os : list op) : list txn :=
  match os with [] => [] | NodeTxn t :: q => t :: txns q | Restart :: q => txns q end.
(** the last word on the services of a node, the oldest transaction first *)
Fixpoint validator (b : bool) (m : nat) (l : list txn) : bool :=
  match l with
  | [] => b
  | t :: q => validator (if nym t =? m then match services t with Some s => s | None => b end else b) m q
  end.
(** names and identifiers of nodes are one-to-one (C57) *)
Definition one_to_one (l : list txn) : Prop := forall t u, In t l -> In u l -> (alias t = alias u <-> nym t = nym u).
(** no node was given another key than its identifier *)
Definition no_keys (l : list txn) : Prop := forall t, In t l -> verkey t = None.
(** the last key a node was given in a history, [k] if none *)
Fixpoint last_key (m k : nat) (l : list op) : nat :=
  match l with
  | [] => k
  | NodeTxn t :: q => last_key m (if nym t =? m then match verkey t with Some x => x | None => k end else k) q
  | Restart :: q => last_key m k q
  end.
