(** Specification vocabulary for the transaction log's Merkle tree.
    Nothing here refers to the model of the code. *)
From Coq Require Import List Arith NArith.
From Verif Require Import Base.
Import ListNotations.

Section Spec.
  (** The digest function (SHA-256 in the code, ledger/tree_hasher.py:7). *)
  Variable H : bytes -> bytes.

  (** RFC 6962, section 2.1, Merkle Tree Hash:
      MTH({})      = H()
      MTH({d0})    = H(0x00 || d0)
      MTH(D[n])    = H(0x01 || MTH(D[0:k]) || MTH(D[k:n])),
      where k is the largest power of two smaller than n (k < n <= 2k). *)
  Inductive MTH : list bytes -> bytes -> Prop :=
  | MTH_empty : MTH [] (H [])
  | MTH_leaf d : MTH [d] (H (0%N :: d))
  | MTH_node k D1 D2 r1 r2 :
      length D1 = 2 ^ k -> 1 <= length D2 <= 2 ^ k ->
      MTH D1 r1 -> MTH D2 r2 ->
      MTH (D1 ++ D2) (H (1%N :: r1 ++ r2)).

  (** An explicit hash collision. *)
  Definition Collision (c : bytes * bytes) : Prop :=
    fst c <> snd c /\ H (fst c) = H (snd c).

  (** All digests have the same length (32 for SHA-256). *)
  Definition FixedLength : Prop := forall x y, length (H x) = length (H y).
End Spec.
