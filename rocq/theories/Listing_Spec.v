(** C101: what a listing of a map is. *)
From Coq Require Import List NArith.
From Verif Require Import Base Rlp_Model Trie_Spec.
Import ListNotations.

(** The list has each key once, and holds exactly the keys of the map that satisfy [which], each with
    its value as [shown]. *)
Definition lists (which : bytes -> Prop) (m : smap) (shown : bytes -> item -> Prop) (l : list (bytes * item)) : Prop :=
  NoDup (map fst l) /\
  forall k x, In (k, x) l <-> which k /\ exists v, m k = Some v /\ shown v x.

(** The value itself, and the value as it is kept in the trie *)
Definition plain (v : bytes) (x : item) : Prop := x = Str v.
Definition raw (v : bytes) (x : item) : Prop := exists e, rlp_encode (Lst [Str v]) = Ok e /\ x = Str e.

Definition every_key (k : bytes) : Prop := True.
Definition starting_with (prefix k : bytes) : Prop := exists rest, k = prefix ++ rest.
