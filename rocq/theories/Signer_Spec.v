(** What the BLS signer of a node should do, without the functions of the model. *)
From Coq Require Import List Arith Bool.
Import ListNotations.
From Verif Require Import Signer_Model.

(** The others verify with the key the ledger has: is a signature of [sk] good under key [k]?
    (Bls.verify itself is not modelled: a signature of [sk] verifies under [pub sk] only.) *)
Definition good (parse_pk : nat -> option nat) (pub : nat -> nat) (sk k : nat) : Prop := parse_pk k = Some (pub sk).

(** The seed of the last run of the script. *)
Definition last_seed (h : list op) : option nat :=
  fold_left (fun a o => match o with Init sd => Some sd | _ => a end) h None.
(** Key files are only written by complete runs of the script. *)
Definition whole (h : list op) : Prop :=
  forall o, In o h -> match o with WriteSk _ | WritePk _ => False | _ => True end.

(** The key the ledger has after the transactions of a history. *)
Definition last_key (h : list op) : option nat :=
  fold_left (fun a o => match o with Own (Some k) _ => Some k | _ => a end) h None.
(** Is there a NODE transaction for the node? *)
Definition on_ledger (h : list op) : bool := existsb (fun o => match o with Own _ _ => true | _ => false end) h.
(** Is the node a validator after them? *)
Definition validator (h : list op) : bool :=
  fold_left (fun a o => match o with Own _ (Some b) => b | _ => a end) h false.
(** Is it running? *)
Definition up (h : list op) : bool :=
  fold_left (fun a o => match o with Start => true | Stop => false | _ => a end) h false.

(** The history of an operator who takes care: the node is only started when the saved key is the one
    on the ledger (or there is none), and a transaction with a new key comes while the node is down,
    or a validator on the ledger already, or it names the key the node signs with anyway ([commits] h:
    what the node puts into a Commit after h). *)
Definition careful (print_pk pub fresh : nat -> nat) (commits : list op -> commit) (h : list op) : Prop :=
  forall h1 o h2, h = h1 ++ o :: h2 ->
    match o with
    | Start => forall sd k, last_seed h1 = Some sd -> last_key h1 = Some k -> k = print_pk (pub (fresh sd))
    | Own (Some k) _ =>
        up h1 = false \/ (on_ledger h1 = true /\ validator (h1 ++ [o]) = true)
        \/ (forall sk, commits h1 = Signed sk -> k = print_pk (pub sk))
    | _ => True
    end.
