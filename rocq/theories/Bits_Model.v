(** ledger/util.py: bit helpers on Python integers. *)
From Coq Require Import List Arith ZArith Lia.
Import ListNotations.

(** ledger/util.py:5-11 [count_bits_set]: [while i: i &= i - 1; count += 1].
    The loop strictly decreases [i], so [i] itself is enough fuel
    ([Bits_Proofs.count_bits_loop_fuel]). *)
Fixpoint count_bits_loop (fuel i : nat) : nat :=
  match fuel with
  | 0 => 0
  | S f => if i =? 0 then 0 else S (count_bits_loop f (Nat.land i (i - 1)))
  end.
Definition count_bits_set (i : nat) : nat := count_bits_loop i i.

(** ledger/util.py:24-32 [highest_bit_set]: [while hi: hi >>= 1; hiBit += 1]. *)
Fixpoint highest_bit_loop (fuel hi : nat) : nat :=
  match fuel with
  | 0 => 0
  | S f => if hi =? 0 then 0 else S (highest_bit_loop f (Nat.div2 hi))
  end.
Definition highest_bit_set (i : nat) : nat := highest_bit_loop i i.

(** ledger/util.py:18-21 [lowest_bit_set]: [highest_bit_set(i & -i)], with Python's
    two's complement [&] on integers of both signs, that is [Z.land]. *)
Definition lowest_bit_set (i : nat) : nat :=
  highest_bit_set (Z.to_nat (Z.land (Z.of_nat i) (- Z.of_nat i))).

(** [len(bin(n))] for [n >= 1] is 2 plus the bit length; [int.bit_length]
    (used at ledger/tree_hasher.py:53) is the number [highest_bit_set] computes. *)
Definition bit_length (n : nat) : nat := highest_bit_set n.
Definition len_bin (n : nat) : nat := 2 + bit_length n.
