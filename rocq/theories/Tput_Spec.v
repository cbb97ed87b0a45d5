(** C72: specification of the measure of throughput, without the modes of the code.

    Time is cut into windows of the same length from the start.  The requests ordered in each window
    are counted.  A stretch of at least [n] windows without requests (or the stretch of empty windows
    at the start), together with the windows with requests that follow it without a gap (at most the
    first [n] of them), is replaced by its mean.  The measure is the exponential moving average of the
    result. *)
From Coq Require Import List Arith Bool ZArith QArith.
Import ListNotations.
Open Scope nat_scope.

(** The number of the window of a time *)
Definition window_of (w t0 ts : nat) : nat := (ts - t0) / w.
(** How many of the requests, given by the times they were ordered at, fall into window [i] *)
Definition count_in (w t0 : nat) (reqs : list nat) (i : nat) : nat :=
  length (filter (fun ts => window_of w t0 ts =? i) reqs).
(** The counts of the first [n] windows *)
Definition counts (w t0 : nat) (reqs : list nat) (n : nat) : list nat := map (count_in w t0 reqs) (seq 0 n).

(** Numbers of requests, cut into stretches: a number of empty windows and the non-empty windows after them *)
Fixpoint stretches (l : list nat) : list (nat * list nat) :=
  match l with
  | [] => [(0, [])]
  | c :: l =>
      match stretches l with
      | (e, busy) :: rest =>
          if c =? 0 then (S e, busy) :: rest
          else match e with O => (0, c :: busy) :: rest | S _ => (0, [c]) :: (e, busy) :: rest end
      | [] => []
      end
  end.

Definition total (l : list nat) : nat := fold_right Nat.add 0 l.
Definition as_is (l : list nat) : list Q := map (fun c => Z.of_nat c # 1)%Q l.
(** [l], every number replaced by the mean *)
Definition mean (l : list nat) : list Q := repeat (Z.of_nat (total l) # Pos.of_nat (length l))%Q (length l).

(** A stretch begins with a fade-out: it is the first one or has enough empty windows *)
Definition faded (n : nat) (first : bool) (s : nat * list nat) : bool := first || (n <=? fst s).
Definition level_stretch (n : nat) (first : bool) (s : nat * list nat) : list Q :=
  match snd s with
  | [] => as_is (repeat 0 (fst s))
  | busy =>
      if faded n first s then mean (repeat 0 (fst s) ++ firstn n busy) ++ as_is (skipn n busy)
      else as_is (repeat 0 (fst s) ++ busy)
  end.
Definition levelled (n : nat) (l : list nat) : list Q :=
  match stretches l with
  | [] => []
  | s :: rest => level_stretch n true s ++ flat_map (level_stretch n false) rest
  end.

(** The last window is within the first [n - 1] non-empty ones after a fade-out *)
Definition reviving_stretch (n : nat) (first : bool) (s : nat * list nat) : bool :=
  faded n first s && (0 <? length (snd s)) && (length (snd s) <? n).
Definition reviving (n : nat) (l : list nat) : bool :=
  match stretches l with
  | [] => false
  | [s] => reviving_stretch n true s
  | _ :: rest => reviving_stretch n false (last rest (0, []))
  end.

(** The exponential moving average with the weight [a], from 0 *)
Definition ema (a : Q) (l : list Q) : Q := fold_left (fun v x => v * (1 - a) + x * a)%Q l 0%Q.
