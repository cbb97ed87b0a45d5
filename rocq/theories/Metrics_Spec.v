(** What is claimed of metrics (C89). *)
From Coq Require Import List Arith NArith ZArith Bool.
From Verif Require Import Dict Metrics_Model.
Import ListNotations.

(** what is to be known of some values *)
Definition lowest (vs : list Z) : option Z := match vs with [] => None | v :: r => Some (fold_left Z.min r v) end.
Definition highest (vs : list Z) : option Z := match vs with [] => None | v :: r => Some (fold_left Z.max r v) end.
Definition summary (vs : list Z) : acc :=
  Acc (length vs) (fold_right Z.add 0%Z vs) (fold_right (fun v s => (v * v + s)%Z) 0%Z vs) (lowest vs) (highest vs).

(** the values added for [n] *)
Definition added (n : nat) (os : list op) : list Z := flat_map (fun o => match o with Add m v => if m =? n then [v] else [] | _ => [] end) os.
(** the names added, in order of their first addition *)
Fixpoint names (os : list op) (seen : list nat) : list nat :=
  match os with [] => seen | Add m _ :: r => names r (add m seen) | _ :: r => names r seen end.
(** what is written by a history: at each flush, for every name of which something was added since the last one, the values
    added, at the next reading of the clock *)
Record written := Written { w_at : N; w_name : nat; w_values : list Z }.
Fixpoint at_flush (clock : nat -> N) (i : nat) (ns : list nat) (since : list op) : list written :=
  match ns with [] => [] | n :: r => Written (clock i) n (added n since) :: at_flush clock (S i) r since end.
Fixpoint writes (clock : nat -> N) (i : nat) (since os : list op) : list written :=
  match os with
  | [] => []
  | Flush :: r => let ns := names since [] in at_flush clock i ns since ++ writes clock (i + length ns) [] r
  | o :: r => writes clock i (since ++ [o]) r
  end.
(** the values written for [n] that a choice of times asks for *)
Definition asked (p : N -> bool) (n : nat) (ws : list written) : list Z :=
  flat_map (fun w => if p (w_at w) && (w_name w =? n) then w_values w else []) ws.
Definition within (mn mx : option N) (t : N) : bool :=
  match mn with Some m => (m <=? t)%N | None => true end && match mx with Some m => (t <=? m)%N | None => true end.

(** the first [k] readings of the clock do not go back, move on within any 2048 readings, and stay below 2^53 microseconds
    (the year 2255) *)
Definition good_clock (clock : nat -> N) (k : nat) : Prop :=
  (forall i j, i <= j -> j < k -> (clock i <= clock j)%N) /\
  (forall i j, i + N.to_nat 2048%N <= j -> j < k -> (clock i < clock j)%N) /\
  (forall i, i < k -> (clock i < ts_mod)%N).
