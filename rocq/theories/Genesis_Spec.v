(** What C86 says of genesis files. *)
From Coq Require Import List Arith.
From Verif Require Import Genesis_Model.
Import ListNotations.

Section Spec.
  Variable txn : Type.
  Variable ser : txn -> list nat.
  Variable de : list nat -> option txn.
  (** the serializer writes one line, not empty, and reads it back *)
  Definition serializes : Prop := forall t, ser t <> [] /\ ~ In LF (ser t) /\ ~ In CR (ser t) /\ de (ser t) = Some t.
  (** the transactions of a file, if it can be read *)
  Fixpoint all_some (l : list (option txn)) : option (list txn) :=
    match l with
    | [] => Some []
    | None :: _ => None
    | Some t :: l' => match all_some l' with Some ts => Some (t :: ts) | None => None end
    end.
  Definition genesis_of (s : list nat) : option (list txn) := all_some (map de (clean_lines s)).
  (** no start is cut short after it wrote something and before it wrote all, and nobody changes the file *)
  Definition whole (ts : list txn) (o : op txn) : Prop :=
    match o with Start _ (Some k) => k = 0 \/ length ts <= k | Put _ _ => False | _ => True end.
  (** the transactions added by the running node: those added while it runs *)
  Definition prefix (a b : list txn) : Prop := exists c, b = a ++ c.
End Spec.
