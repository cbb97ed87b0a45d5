(** Model of state/util/fast_rlp.py and of the nibble functions of
    state/trie/pruning_trie.py:18-186. *)
From Coq Require Import List Arith NArith Bool.
From Verif Require Import Base.
Import ListNotations.
Local Open Scope res_scope.

(** A nested sequence of byte strings. *)
Inductive item := Str (b : bytes) | Lst (l : list item).

Definition lenN {A} (l : list A) : N := N.of_nat (length l).

(** [int_to_big_endian] of a number below 256^8 *)
Fixpoint be_digits (k : nat) (n : N) (acc : bytes) : bytes :=
  match k with
  | 0 => acc
  | S k' => if N.eqb n 0 then acc else be_digits k' (n / 256) ((n mod 256)%N :: acc)
  end.
Definition int_to_big_endian (n : N) : bytes := be_digits 8 n [].
(** [big_endian_to_int] (leading zeros are stripped first, which does not change the value) *)
Definition big_endian_to_int (b : bytes) : N := fold_left (fun a d => (256 * a + d)%N) b 0%N.

(** fast_rlp.py:20-31 [length_prefix] *)
Definition length_prefix (len offset : N) : bytes :=
  if (len <? 56)%N then [(offset + len)%N]
  else let s := int_to_big_endian len in (offset + 56 - 1 + lenN s)%N :: s.

(** fast_rlp.py:8-17 [_encode_optimized], for items whose lengths are below 256^8. In Python 3
    the name [encode_optimized] is bound to encode_raw of the rlp package (line 80), taken to be
    the same function. *)
Fixpoint rlp (i : item) : bytes :=
  match i with
  | Str s =>
    match s with
    | [b] => if (b <? 128)%N then s else length_prefix (lenN s) 128 ++ s
    | _ => length_prefix (lenN s) 128 ++ s
    end
  | Lst l => let p := concat (map rlp l) in length_prefix (lenN p) 192 ++ p
  end.

(** No string or payload is too long for a length prefix. *)
Fixpoint fits (i : item) : bool :=
  match i with
  | Str s => (lenN s <? 256 ^ 8)%N
  | Lst l => forallb fits l && (lenN (concat (map rlp l)) <? 256 ^ 8)%N
  end.

(** Encoding raises ValueError for a length of 256^8 or more. *)
Definition rlp_encode (i : item) : res bytes := if fits i then Ok (rlp i) else Err ValueError.

(** [s[:n]] and [s[n:]] *)
Definition takeN {A} (n : N) (s : list A) : list A := firstn (N.to_nat (N.min n (lenN s))) s.
Definition dropN {A} (n : N) (s : list A) : list A := skipn (N.to_nat (N.min n (lenN s))) s.

(** fast_rlp.py:47-71 [consume_length_prefix] at the start of [s]: is it a list, the length of
    the payload, the position of the payload. *)
Definition consume_length_prefix (s : bytes) : res (bool * N * N) :=
  match s with
  | [] => Err IndexError
  | b0 :: tl =>
    if (b0 <? 128)%N then Ok (false, 1, 0)%N
    else if (b0 <? 128 + 56)%N then Ok (false, (b0 - 128)%N, 1%N)
    else if (b0 <? 192)%N then
      let ll := (b0 - 128 - 56 + 1)%N in Ok (false, big_endian_to_int (takeN ll tl), (1 + ll)%N)
    else if (b0 <? 192 + 56)%N then Ok (true, (b0 - 192)%N, 1%N)
    else
      let ll := (b0 - 192 - 56 + 1)%N in Ok (true, big_endian_to_int (takeN ll tl), (1 + ll)%N)
  end.

(** fast_rlp.py:34-44 [_decode_optimized]. [fuel] and [n] only bound the recursion and the
    loop: with the length of the string they are never used up (C15_decode_total). *)
Fixpoint decode_items (dec : bytes -> res item) (n : nat) (s : bytes) : res (list item) :=
  match s with
  | [] => Ok []
  | _ =>
    match n with
    | 0 => Err OutOfFuel
    | S n' =>
      '(_, l, p) <- consume_length_prefix s ;;
      x <- dec (takeN (l + p) s) ;;
      xs <- decode_items dec n' (dropN (l + p) s) ;;
      Ok (x :: xs)
    end
  end.
Fixpoint decode_f (fuel : nat) (s : bytes) : res item :=
  match fuel with
  | 0 => Err OutOfFuel
  | S fuel' =>
    '(is_list, l, p) <- consume_length_prefix s ;;
    if (is_list : bool) then xs <- decode_items (decode_f fuel') (length s) (dropN p s) ;; Ok (Lst xs)
    else Ok (Str (takeN l (dropN p s)))
  end.
Definition rlp_decode (s : bytes) : res item := decode_f (length s + 1) s.

(** ** Nibbles (pruning_trie.py) *)
Definition nibbles := list N.
(** lines 21-33 [bin_to_nibbles]: the hex digits *)
Fixpoint bin_to_nibbles (s : bytes) : nibbles :=
  match s with
  | [] => []
  | b :: s' => (b / 16)%N :: (b mod 16)%N :: bin_to_nibbles s'
  end.

Fixpoint pairs_to_bytes (n : nibbles) : res bytes :=
  match n with
  | [] => Ok []
  | [_] => Err IndexError
  | a :: b :: n' => r <- pairs_to_bytes n' ;; Ok ((16 * a + b)%N :: r)
  end.

(** lines 36-46 [nibbles_to_bin] *)
Definition nibbles_to_bin (n : nibbles) : res bytes :=
  if existsb (fun x => (15 <? x)%N) n then Err ValueError
  else if Nat.odd (length n) then Err ValueError
  else pairs_to_bytes n.

Definition NIBBLE_TERMINATOR : N := 16%N.

(** Does the last nibble exist and equal the terminator? *)
Definition has_terminator (n : nibbles) : bool :=
  match rev n with x :: _ => N.eqb x NIBBLE_TERMINATOR | [] => false end.
(** lines 109-127 *)
Definition with_terminator (n : nibbles) : nibbles :=
  if has_terminator n then n else n ++ [NIBBLE_TERMINATOR].
Definition without_terminator (n : nibbles) : nibbles :=
  if has_terminator n then removelast n else n.
Definition adapt_terminator (n : nibbles) (term : bool) : nibbles :=
  if term then with_terminator n else without_terminator n.

(** lines 139-160 [pack_nibbles]; [bytes([x])] of a number above 255 raises ValueError *)
Definition to_byte_string (s : bytes) : res bytes :=
  if forallb (fun b => (b <? 256)%N) s then Ok s else Err ValueError.
Definition pack_nibbles (n : nibbles) : res bytes :=
  match n with
  | [] => Err IndexError
  | _ =>
    let flags := if has_terminator n then 2%N else 0%N in
    let n1 := if has_terminator n then removelast n else n in
    let n2 := if Nat.odd (length n1) then (flags + 1)%N :: n1 else flags :: 0%N :: n1 in
    r <- pairs_to_bytes n2 ;; to_byte_string r
  end.

(** lines 163-177 [unpack_to_nibbles] *)
Definition unpack_to_nibbles (s : bytes) : res nibbles :=
  match bin_to_nibbles s with
  | [] => Err IndexError
  | flags :: o =>
    let o1 := if N.testbit flags 1 then (flags :: o) ++ [NIBBLE_TERMINATOR] else flags :: o in
    Ok (if N.testbit flags 0 then skipn 1 o1 else skipn 2 o1)
  end.

(** lines 180-186 [starts_with] *)
Definition starts_with (full part : nibbles) : bool :=
  if length full <? length part then false else bytes_eqb (firstn (length part) full) part.
