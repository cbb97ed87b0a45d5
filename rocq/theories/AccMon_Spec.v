(** What is claimed of the accumulating monitor (C90), in terms of the history of what happened. *)
From Coq Require Import List Arith ZArith QArith Bool.
From Verif Require Import AccMon_Model.
Import ListNotations.
Open Scope nat_scope.

(** the instances there are *)
Definition members (l : list nat) (os : list op) : list nat :=
  fold_left (fun l o => match o with AddI i => if in_dec Nat.eq_dec i l then l else l ++ [i] | RemI i => remove Nat.eq_dec i l | _ => l end) os l.
(** how many requests [i] has ordered since the last reset *)
Definition progress (i : nat) (os : list op) : nat :=
  fold_left (fun n o => match o with Ord j => if i =? j then S n else n | Reset => 0 | _ => n end) os 0.
(** the time; when counting of requests began; when, since then, requests were received *)
Record past := Past { p_now : Z; p_since : Z; p_received : list Z }.
Definition past_of (t0 : Z) (os : list op) : past :=
  fold_left (fun p o => match o with
                        | Upd t => Past t (p_since p) (p_received p)
                        | Recv => Past (p_now p) (p_since p) (p_received p ++ [p_now p])
                        | Reset => Past (p_now p) (p_now p) []
                        | _ => p
                        end) os (Past t0 t0 []).
(** time does not go back *)
Fixpoint timely (t : Z) (os : list op) : Prop :=
  match os with [] => True | Upd t' :: r => (t <= t')%Z /\ timely t' r | _ :: r => timely t r end.

Fixpoint power (q : Q) (n : nat) : Q := match n with O => 1%Q | S n => (q * power q n)%Q end.

Section Params.
Variables (delta_k window : Z) (alpha : Q).
(** the window, counted from [since], that a time belongs to *)
Definition window_of (since t : Z) : nat := Z.to_nat ((t - since - 1) / window).
Definition received_in (p : past) (k : nat) : nat := length (filter (fun t => window_of (p_since p) t =? k) (p_received p)).
(** the average over the first [n] windows of the requests in each, older ones counting less and less *)
Fixpoint ema (p : past) (n : nat) : Q :=
  match n with
  | O => 0%Q
  | S k => (inject_Z (Z.of_nat (received_in p k)) / inject_Z window * alpha + ema p k * (1 - alpha))%Q
  end.
(** over the windows that are over *)
Definition input_rate (t0 : Z) (os : list op) : Q := let p := past_of t0 os in ema p (window_of (p_since p) (p_now p)).
(** is [i] behind another instance by more than [delta_k] times that? *)
Definition lags (t0 : Z) (l : list nat) (os : list op) (i : nat) : Prop :=
  2 <= length (members l os) /\
  exists j, In j (members l os) /\ (inject_Z delta_k * input_rate t0 os < inject_Z (Z.of_nat (progress j os) - Z.of_nat (progress i os)))%Q.
(** from the look at the time after [os1] on, [i] was behind at every look while it was there, and nothing was reset *)
Definition always_lags (t0 : Z) (l : list nat) (os1 : list op) (t : Z) (os2 : list op) (i : nat) : Prop :=
  In i (members l os1) /\ lags t0 l (os1 ++ [Upd t]) i /\ ~ In Reset os2 /\
  forall a t' b, os2 = a ++ Upd t' :: b -> In i (members l (os1 ++ Upd t :: a)) -> lags t0 l (os1 ++ Upd t :: a ++ [Upd t']) i.
End Params.
