(** Model of the measure of the throughput of an instance: plenum/common/throughput_measurements.py
    (RevivalSpikeResistantEMAThroughputMeasurement with its base classes, the class in config.py:149).

    Times are whole numbers of some unit (floats in the code) and numbers of requests per second are
    exact fractions (floats in the code).  [None] as the outcome of a call means that it raises
    (arithmetic on None, division by zero) or does not return.  idle_start_ts and revival_start_ts
    are written and never read: left out. *)
From Coq Require Import List Arith Bool ZArith QArith.
Import ListNotations.
Open Scope nat_scope.

(** throughput_measurements.py:30-45: window_size, min_cnt *)
Record params := Params { window : nat; min_cnt : nat }.

(** throughput_measurements.py:41 [alpha = 2 / (self.min_cnt + 1)] *)
Definition alpha (p : params) : Q := 2 # Pos.of_succ_nat (min_cnt p).

(** throughput_measurements.py:110-115 [State] *)
Inductive mode := NORMAL | IDLE | FADED | REVIVAL.

Record tm := TM {
  riw : nat;               (* reqs_in_window *)
  thr : option Q;          (* throughput *)
  wst : nat;               (* window_start_ts *)
  fst_ts : nat;            (* first_ts *)
  md : mode;               (* state *)
  bef : option Q;          (* throughput_before_idle *)
  emp : nat;               (* empty_windows_count *)
  rcnt : option nat;       (* revival_windows_count *)
  rreq : option nat }.     (* reqs_during_revival *)

(** throughput_measurements.py:30-48,82-91,117-136: __init__ and init_time *)
Definition init (t0 : nat) : tm := TM 0 (Some 0%Q) t0 t0 FADED (Some 0%Q) 0 None None.

(** throughput_measurements.py:54-58 [_accumulate]; raises when [old] is None *)
Definition accumulate (p : params) (old : option Q) (next : Q) : option Q :=
  match old with
  | None => None
  | Some o => Some (o * (1 - alpha p) + next * alpha p)%Q
  end.

(** self.reqs_in_window / self.window_size *)
Definition rate (p : params) (n : nat) : Q := Z.of_nat n # Pos.of_nat (window p).

Definition with_thr (s : tm) (v : Q) : tm := TM (riw s) (Some v) (wst s) (fst_ts s) (md s) (bef s) (emp s) (rcnt s) (rreq s).
Definition with_mode (s : tm) (m : mode) : tm := TM (riw s) (thr s) (wst s) (fst_ts s) m (bef s) (emp s) (rcnt s) (rreq s).
Definition with_emp (s : tm) (n : nat) : tm := TM (riw s) (thr s) (wst s) (fst_ts s) (md s) (bef s) n (rcnt s) (rreq s).

(** the four assignments on entering IDLE: throughput_measurements.py:140-143,190-193 *)
Definition go_idle (s : tm) : tm := TM (riw s) (thr s) (wst s) (fst_ts s) IDLE (thr s) 1 (rcnt s) (rreq s).

(** self.throughput = self._accumulate(self.throughput, x) *)
Definition accumulate_in (p : params) (s : tm) (x : Q) : option tm :=
  match accumulate p (thr s) x with None => None | Some v => Some (with_thr s v) end.

(** throughput_measurements.py:138-146 [_process_window_in_normal_mode] *)
Definition window_normal (p : params) (s : tm) : option tm :=
  let s := if riw s =? 0 then go_idle s else s in
  accumulate_in p s (rate p (riw s)).

(** throughput_measurements.py:148-157 [_process_window_in_idle_mode] *)
Definition window_idle (p : params) (s : tm) : option tm :=
  let s := if riw s =? 0 then
             let s := with_emp s (emp s + 1) in
             if emp s =? min_cnt p then with_mode s FADED else s
           else with_mode s NORMAL in
  accumulate_in p s (rate p (riw s)).

(** throughput_measurements.py:159-168 [_process_window_in_faded_mode] *)
Definition window_faded (p : params) (s : tm) : option tm :=
  if riw s =? 0 then accumulate_in p (with_emp s (emp s + 1)) 0%Q
  else Some (TM (riw s) None (wst s) (fst_ts s) REVIVAL (bef s) (emp s) (Some 1) (Some (riw s))).

(** the loop in throughput_measurements.py:178-180 *)
Fixpoint accumulate_n (p : params) (n : nat) (v : option Q) (x : Q) : option Q :=
  match n with
  | O => v
  | S n => match accumulate p v x with None => None | Some v => accumulate_n p n (Some v) x end
  end.

(** throughput_measurements.py:170-180 [_level_reqs_after_revival] *)
Definition level_after_revival (p : params) (s : tm) : option tm :=
  match rcnt s, rreq s with
  | Some c, Some r =>
      let n := emp s + c in
      if n =? 0 then None
      else
        let x := ((Z.of_nat r # Pos.of_nat n) / (Z.of_nat (window p) # 1))%Q in
        match accumulate_n p n (bef s) x with
        | Some v => Some (with_thr s v)
        | None => None
        end
  | _, _ => None
  end.

(** throughput_measurements.py:182-195 [_process_window_in_revival_mode] *)
Definition window_revival (p : params) (s : tm) : option tm :=
  if 0 <? riw s then
    match rcnt s, rreq s with
    | Some c, Some r =>
        let s := TM (riw s) (thr s) (wst s) (fst_ts s) (md s) (bef s) (emp s) (Some (c + 1)) (Some (r + riw s)) in
        if c + 1 =? min_cnt p then
          match level_after_revival p s with
          | Some s => Some (with_mode s NORMAL)
          | None => None
          end
        else Some s
    | _, _ => None
    end
  else
    match level_after_revival p s with
    | Some s => accumulate_in p (go_idle s) 0%Q
    | None => None
    end.

(** throughput_measurements.py:197-208 [_process_window] *)
Definition process_window (p : params) (s : tm) : option tm :=
  match md s with
  | NORMAL => window_normal p s
  | IDLE => window_idle p s
  | FADED => window_faded p s
  | REVIVAL => window_revival p s
  end.

(** throughput_measurements.py:63-67 [_update_time]; the loop may not end: [fuel] bounds the number of
    rounds, [None] when they are used up *)
Fixpoint update_loop (fuel : nat) (p : params) (ts : nat) (s : tm) : option tm :=
  match fuel with
  | O => None
  | S fuel =>
      if wst s + window p <=? ts then
        match process_window p s with
        | None => None
        | Some s => update_loop fuel p ts (TM 0 (thr s) (wst s + window p) (fst_ts s) (md s) (bef s) (emp s) (rcnt s) (rreq s))
        end
      else Some s
  end.
Definition update_time (p : params) (ts : nat) (s : tm) : option tm := update_loop (S ts) p ts s.

(** throughput_measurements.py:50-52 [add_request] *)
Definition add_request (p : params) (ts : nat) (s : tm) : option tm :=
  match update_time p ts s with
  | None => None
  | Some s => Some (TM (riw s + 1) (thr s) (wst s) (fst_ts s) (md s) (bef s) (emp s) (rcnt s) (rreq s))
  end.

(** throughput_measurements.py:93-96,69-71 [get_throughput]: the measure and the state after the call *)
Definition get_throughput (p : params) (ts : nat) (s : tm) : option (option Q * tm) :=
  if ts <? fst_ts s + window p * min_cnt p then Some (None, s)
  else match update_time p ts s with
       | None => None
       | Some s => Some (thr s, s)
       end.

(** What is done with a measure: a request was ordered, the measure is asked for *)
Inductive call := Add (ts : nat) | Get (ts : nat).
Definition do_call (p : params) (s : tm) (c : call) : option tm :=
  match c with
  | Add ts => add_request p ts s
  | Get ts => match get_throughput p ts s with None => None | Some (_, s) => Some s end
  end.
Fixpoint run (p : params) (s : tm) (cs : list call) : option tm :=
  match cs with
  | [] => Some s
  | c :: cs => match do_call p s c with None => None | Some s => run p s cs end
  end.
