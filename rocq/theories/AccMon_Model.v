(** Model of plenum/common/monitor_strategies.py:44-111 [AccumulatingMonitorStrategy] and of the estimator it uses,
    plenum/common/moving_average.py.  Times are whole ticks and rates are rationals (floats in the code); [_statistics] and logging are
    not modelled.  Instances are numbers. *)
From Coq Require Import List Arith ZArith QArith Bool.
From Verif Require Import Dict.
Import ListNotations.
Open Scope nat_scope.

Section Params.
(** ACC_MONITOR_TXN_DELTA_K, ACC_MONITOR_TIMEOUT (monitor_strategies.py:45-46); the window and the weight of the estimator
    (moving_average.py:76-79: half time / steps, - ln 0.5 / steps) *)
Variables (delta_k timeout window : Z) (alpha : Q).

(** *** moving_average.py *)
Record est := Est { e_start : Z; e_sum : nat; e_value : Q }.
(** moving_average.py:34-35 *)
Definition average (v : Q) (x : Q) : Q := (x * alpha + v * (1 - alpha))%Q.
(** moving_average.py:64-68: the loop; the fuel is never used up *)
Fixpoint roll (fuel : nat) (e : est) (ts : Z) : est :=
  match fuel with
  | O => e
  | S fuel => if (e_start e + window <? ts)%Z
              then roll fuel (Est (e_start e + window) 0 (average (e_value e) (inject_Z (Z.of_nat (e_sum e)) / inject_Z window))) ts
              else e
  end.
Definition est_update_time (e : est) (ts : Z) : est := roll (Z.to_nat (ts - e_start e)) e ts.
(** moving_average.py:56-62 *)
Definition est_add (e : est) : est := Est (e_start e) (S (e_sum e)) (e_value e).
Definition est_reset (t : Z) : est := Est t 0 0%Q.

(** *** monitor_strategies.py *)
(** [alerts]: those that are not [None]; [keys]: [None] for the defaultdict of line 53, else the keys of the dict of line 66 *)
Record mon := Mon { insts : list nat; ordered : dict nat; now : Z; alerts : dict Z; keys : option (list nat); rate : est }.
Definition init (t : Z) (l : list nat) : mon := Mon l [] t [] None (est_reset t).
(** monitor_strategies.py:98-106 *)
Definition done (s : mon) (i : nat) : nat := get_or i 0 (ordered s).
Definition behind (s : mon) (i : nat) : bool :=
  if length (insts s) <? 2 then false
  else negb (Qle_bool (inject_Z (Z.of_nat (fold_right Nat.max 0 (map (done s) (insts s))) - Z.of_nat (done s i))) (inject_Z delta_k * e_value (rate s))).
(** reading [_alert_timestamp]; [None]: KeyError *)
Definition known (s : mon) (i : nat) : bool := match keys s with None => true | Some ks => existsb (Nat.eqb i) ks end.
(** monitor_strategies.py:73-84: the loop over the instances *)
Fixpoint check (s : mon) (l : list nat) (al : dict Z) : option (dict Z) :=
  match l with
  | [] => Some al
  | i :: r =>
      if known s i
      then match get i al, behind s i with
           | Some _, false => check s r (del i al)
           | None, true => check s r (set i (now s) al)
           | _, _ => check s r al
           end
      else None
  end.
Definition update_time (s : mon) (t : Z) : option mon :=
  let s1 := Mon (insts s) (ordered s) t (alerts s) (keys s) (est_update_time (rate s) t) in
  match check s1 (insts s1) (alerts s1) with
  | Some al => Some (Mon (insts s1) (ordered s1) (now s1) al (keys s1) (rate s1))
  | None => None
  end.
Inductive op := AddI (i : nat) | RemI (i : nat) | Reset | Upd (t : Z) | Recv | Ord (i : nat).
(** monitor_strategies.py:56-70, 86-90; [None]: KeyError *)
Definition step (s : mon) (o : op) : option mon :=
  match o with
  | AddI i => Some (Mon (add i (insts s)) (ordered s) (now s) (alerts s) (keys s) (rate s))
  | RemI i => if existsb (Nat.eqb i) (insts s)
              then Some (Mon (filter (fun j => negb (i =? j)) (insts s)) (ordered s) (now s) (alerts s) (keys s) (rate s)) else None
  | Reset => Some (Mon (insts s) [] (now s) [] (Some (insts s)) (est_reset (now s)))
  | Upd t => update_time s t
  | Recv => Some (Mon (insts s) (ordered s) (now s) (alerts s) (keys s) (est_add (rate s)))
  | Ord i => Some (Mon (insts s) (set i (S (done s i)) (ordered s)) (now s) (alerts s) (keys s) (rate s))
  end.
Fixpoint run (s : mon) (os : list op) : option mon :=
  match os with [] => Some s | o :: r => match step s o with Some s' => run s' r | None => None end end.
(** monitor_strategies.py:95-96; [None]: KeyError *)
Definition degraded (s : mon) (i : nat) : option bool :=
  if known s i then Some (match get i (alerts s) with Some t => (timeout <? now s - t)%Z | None => false end) else None.
End Params.
