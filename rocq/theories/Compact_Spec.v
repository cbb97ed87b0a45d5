(** What is asked of the serializer (C108). *)
From Coq Require Import Ascii List Arith Bool.
From Verif Require Import Compact_Model.
Import ListNotations.

(** a value that can be told from the text: it is not written as the empty text or with a delimiter, and read back as it was *)
Definition writable {V} (delim : ascii) (enc : nat -> V -> text) (dec : nat -> text -> V) (n : nat) (v : V) : Prop :=
  enc n v <> [] /\ ~ In delim (enc n v) /\ dec n (enc n v) = v.
(** all values of the fields are such, or there is none *)
Definition fits {V} (delim : ascii) (enc : nat -> V -> text) (dec : nat -> text -> V) (fs : list field) (d : dict V) : Prop :=
  forall f v, In f fs -> get V d (fname f) = Some v -> writable delim enc dec (fname f) v.
