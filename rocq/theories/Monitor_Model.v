(** Model of the monitor of the instances of a node: plenum/server/monitor.py (RequestTimeTracker;
    Monitor: reset, addInstance, removeInstance, requestOrdered, requestUnOrdered, check_unordered,
    isMasterDegraded, areBackupsDegraded and what they call), plenum/common/latency_measurements.py
    (EMALatencyMeasurementForAllClient), plenum/common/average_strategies.py, plenum/server/instances.py,
    and of the calls of it in plenum/server/node.py (processOrdered, checkPerformance) and
    plenum/server/replicas.py (add_replica, remove_replica).

    Requests are numbers (their digests).  Times are whole numbers, rates and averages exact fractions
    (floats in the code).  The time is read once in each call (several times, shortly after each other,
    in the code).  The accumulating strategy is off (ACC_MONITOR_ENABLED, config.py:355), as are the
    'unsafe' options.  Logging, plugins and statistics (totalRequests) are left out.  [None]: the call raises. *)
From Coq Require Import List Arith Bool ZArith QArith.
From Verif Require Import Base Dict Tput_Model.
Import ListNotations.
Open Scope nat_scope.

Record config := Config {
  tput : params;            (* throughput_measurement_params *)
  min_latency : nat;        (* MIN_LATENCY_COUNT *)
  delta : Q;                (* DELTA *)
  omega : Q;                (* OMEGA *)
  check_freq : nat }.       (* UnorderedCheckFreq *)

(** latency_measurements.py:49-57: avg_latency, total_reqs *)
Record lat := Lat { l_avg : Q; l_total : nat }.
Definition new_lat : lat := Lat 0 0.
(** latency_measurements.py:54 [alpha = 1 / (min_latency_count + 1)] *)
Definition lat_alpha (c : config) : Q := 1 # Pos.of_succ_nat (min_latency c).
(** latency_measurements.py:59-67 [add_duration], [_accumulate] *)
Definition add_duration (c : config) (d : nat) (l : lat) : lat :=
  Lat (l_avg l * (1 - lat_alpha c) + (Z.of_nat d # 1) * lat_alpha c)%Q (l_total l + 1).
(** latency_measurements.py:69-73 [get_avg_latency] *)
Definition avg_latency (c : config) (l : lat) : option Q := if l_total l <? min_latency c then None else Some (l_avg l).

(** monitor.py:35-63 [RequestTimeTracker.Request] *)
Record req := Req { r_time : nat; r_ordered : dict bool; r_handled : bool }.
(** monitor.py:36-44 *)
Definition new_req (t : nat) (ids : list nat) : req := Req t (map (fun i => (i, false)) ids) false.
(** monitor.py:46-48 [order] *)
Definition req_order (i : nat) (r : req) : req :=
  match get i (r_ordered r) with Some _ => Req (r_time r) (set i true (r_ordered r)) (r_handled r) | None => r end.
(** monitor.py:50-51 [remove_instance] *)
Definition req_remove (i : nat) (r : req) : req := Req (r_time r) (del i (r_ordered r)) (r_handled r).
(** monitor.py:61-63 [is_ordered_by_all] *)
Definition by_all (r : req) : bool := forallb snd (r_ordered r).

(** monitor.py:65-69 [RequestTimeTracker]; _handled_unordered is read only for logging: left out *)
Record tracker := Tracker {
  t_ids : list nat; t_reqs : dict req; t_unordered : list nat }.

Definition discard (k : nat) (l : list nat) : list nat := filter (fun x => negb (x =? k)) l.

(** monitor.py:81-83 [start] *)
Definition tr_start (k t : nat) (x : tracker) : tracker :=
  Tracker (t_ids x) (set k (new_req t (t_ids x)) (t_reqs x)) (add k (t_unordered x)).
(** monitor.py:85-96 [order], for a key that is there: the time it took *)
Definition tr_order (i k t : nat) (r : req) (x : tracker) : tracker * nat :=
  let r' := req_order i r in
  let x := Tracker (t_ids x) (set k r' (t_reqs x)) (if i =? 0 then discard k (t_unordered x) else t_unordered x) in
  let x := if by_all r' then Tracker (t_ids x) (del k (t_reqs x)) (t_unordered x) else x in
  (x, t - r_time r).
(** monitor.py:98-101 [handle] *)
Definition tr_handle (k : nat) (x : tracker) : tracker :=
  match get k (t_reqs x) with
  | Some r => Tracker (t_ids x) (set k (Req (r_time r) (r_ordered r) true) (t_reqs x)) (t_unordered x)
  | None => x
  end.
(** monitor.py:103-106 [reset] *)
Definition tr_reset (x : tracker) : tracker := Tracker (t_ids x) [] [].
(** monitor.py:129-133 [force_req_drop] *)
Definition tr_drop (k : nat) (x : tracker) : tracker :=
  Tracker (t_ids x) (del k (t_reqs x)) (discard k (t_unordered x)).
(** monitor.py:118-119 [add_instance] *)
Definition tr_add (i : nat) (x : tracker) : tracker := Tracker (add i (t_ids x)) (t_reqs x) (t_unordered x).
(** monitor.py:121-127 [remove_instance]; set.remove raises when the element is not there *)
Definition tr_remove (i : nat) (x : tracker) : option tracker :=
  let reqs := map (fun kr => (fst kr, req_remove i (snd kr))) (t_reqs x) in
  let gone := map fst (filter (fun kr => by_all (snd kr)) reqs) in
  let x := fold_left (fun x k => tr_drop k x) gone (Tracker (t_ids x) reqs (t_unordered x)) in
  if existsb (Nat.eqb i) (t_ids x)
  then Some (Tracker (discard i (t_ids x)) (t_reqs x) (t_unordered x)) else None.
(** monitor.py:114-116 [unhandled_unordered]; is_ordered (53-55) raises when instance 0 is not there *)
Fixpoint unhandled (l : dict req) : option (list (nat * nat)) :=
  match l with
  | [] => Some []
  | (k, r) :: l =>
      match get 0 (r_ordered r), unhandled l with
      | Some o, Some rest => Some (if negb o && negb (r_handled r) then (k, r_time r) :: rest else rest)
      | _, _ => None
      end
  end.

(** monitor.py:145-251 [Monitor]; instances.py *)
Record mon := Mon {
  m_ids : list nat;               (* instances.started *)
  m_num : dict (nat * nat);       (* numOrderedRequests *)
  m_tput : dict tm;               (* throughputs *)
  m_lat : dict lat;               (* clientAvgReqLatencies *)
  m_track : tracker;              (* requestTracker *)
  m_last : option nat }.          (* node.py:2275 _last_performance_check_data['num_ordered'] *)

Definition empty : mon := Mon [] [] [] [] (Tracker [] [] []) None.

(** monitor.py:308-326 [reset] *)
Definition reset (t : nat) (m : mon) : mon :=
  Mon (m_ids m) (map (fun i => (i, (0, 0))) (m_ids m))
      (fold_left (fun d i => set i (init t) d) (m_ids m) (m_tput m))
      (fold_left (fun d i => set i new_lat d) (m_ids m) (m_lat m))
      (tr_reset (m_track m)) (m_last m).
(** monitor.py:328-341 [addInstance]; instances.py:12-16 *)
Definition add_instance (i t : nat) (m : mon) : mon :=
  Mon (add i (m_ids m)) (set i (0, 0) (m_num m)) (set i (init t) (m_tput m)) (set i new_lat (m_lat m))
      (tr_add i (m_track m)) (m_last m).
(** monitor.py:343-351 [removeInstance] *)
Definition remove_instance (i : nat) (m : mon) : option mon :=
  match m_ids m with
  | [] => Some m
  | _ =>
      match tr_remove i (m_track m) with
      | Some x => Some (Mon (discard i (m_ids m)) (del i (m_num m)) (del i (m_tput m)) (del i (m_lat m)) x (m_last m))
      | None => None
      end
  end.

(** monitor.py:364-386 the loop of [requestOrdered]; [known]: the requests the node has *)
Fixpoint order_keys (c : config) (i t : nat) (known : list nat) (ks : list nat) (m : mon) (ds : dict nat)
  : option (mon * dict nat) :=
  match ks with
  | [] => Some (m, ds)
  | k :: ks =>
      match get k (t_reqs (m_track m)) with
      | None => order_keys c i t known ks m ds
      | Some r =>
          let (x, d) := tr_order i k t r (m_track m) in
          match get i (m_tput m) with
          | None => None
          | Some th =>
              match add_request (tput c) t th with
              | None => None
              | Some th =>
                  let next l := order_keys c i t known ks
                    (Mon (m_ids m) (m_num m) (set i th (m_tput m)) l x (m_last m)) (set k d ds) in
                  if existsb (Nat.eqb k) known
                  then match get i (m_lat m) with
                       | None => None
                       | Some l => next (set i (add_duration c d l) (m_lat m))
                       end
                  else next (m_lat m)
              end
          end
      end
  end.

(** monitor.py:353-386,400 [requestOrdered] *)
Definition request_ordered (c : config) (ks : list nat) (i t : nat) (known : list nat) (m : mon) : option mon :=
  match order_keys c i t known ks m [] with
  | None => None
  | Some (m, ds) =>
      match get i (m_num m) with
      | None => None
      | Some (n, d) =>
          Some (Mon (m_ids m) (set i (n + length ds, d + fold_right Nat.add 0 (map snd ds)) (m_num m))
                    (m_tput m) (m_lat m) (m_track m) (m_last m))
      end
  end.

(** monitor.py:402-410 [requestUnOrdered] *)
Definition request_unordered (k t : nat) (m : mon) : mon :=
  Mon (m_ids m) (m_num m) (m_tput m) (m_lat m) (tr_start k t (m_track m)) (m_last m).

(** monitor.py:412-423 [check_unordered]: the requests given to the handlers *)
Definition check_unordered (c : config) (t : nat) (m : mon) : option (mon * list nat) :=
  match unhandled (t_reqs (m_track m)) with
  | None => None
  | Some l =>
      let late := map fst (filter (fun kt => check_freq c <? t - snd kt) l) in
      Some (Mon (m_ids m) (m_num m) (m_tput m) (m_lat m) (fold_left (fun x k => tr_handle k x) late (m_track m))
                (m_last m), late)
  end.

(** ** Averages *)
Fixpoint insert (x : Q) (l : list Q) : list Q :=
  match l with [] => [x] | y :: l => if Qle_bool x y then x :: y :: l else y :: insert x l end.
Definition sort (l : list Q) : list Q := fold_right insert [] l.
(** average_strategies.py:12-15 [MedianLowStrategy]: statistics.median_low *)
Definition median_low (l : list Q) : Q := nth ((length l - 1) / 2) (sort l) 0%Q.
(** average_strategies.py:24-27 [MedianHighStrategy]: statistics.median_high *)
Definition median_high (l : list Q) : Q := nth (length l / 2) (sort l) 0%Q.
(** average_strategies.py:18-21 [MedianMediumStrategy]: statistics.median *)
Definition median (l : list Q) : Q :=
  if Nat.odd (length l) then nth (length l / 2) (sort l) 0%Q
  else ((nth (length l / 2 - 1) (sort l) 0 + nth (length l / 2) (sort l) 0) / 2)%Q.

(** ** Verdicts *)
(** monitor.py:579-592 [getThroughput] *)
Definition get_tput (c : config) (i t : nat) (m : mon) : option (option Q * mon) :=
  if existsb (Nat.eqb i) (m_ids m) then
    match get i (m_tput m) with
    | None => None
    | Some th =>
        match get_throughput (tput c) t th with
        | None => None
        | Some (v, th) => Some (v, Mon (m_ids m) (m_num m) (set i th (m_tput m)) (m_lat m) (m_track m) (m_last m))
        end
    end
  else Some (None, m).

(** monitor.py:556-562 the loop of [getThroughputs] over [ids] *)
Fixpoint get_others (c : config) (i t : nat) (ids : list nat) (m : mon) : option (list Q * mon) :=
  match ids with
  | [] => Some ([], m)
  | j :: ids =>
      if j =? i then get_others c i t ids m
      else match get_tput c j t m with
           | None => None
           | Some (v, m) =>
               match get_others c i t ids m with
               | None => None
               | Some (vs, m) => Some (match v with Some q => q :: vs | None => vs end, m)
               end
           end
  end.

(** monitor.py:594-607 [getInstanceMetrics]: the number of requests *)
Definition others_num (i : nat) (m : mon) : nat :=
  fold_right Nat.add 0 (map (fun x => fst (snd x)) (filter (fun x => negb (fst x =? i)) (m_num m))).

Definition is_zero (q : Q) : bool := Qle_bool q 0 && Qle_bool 0 q.

(** monitor.py:543-577 [getThroughputs] *)
Definition get_throughputs (c : config) (i t : nat) (m : mon) : option (option Q * option Q * mon) :=
  match get_tput c i t m with
  | None => None
  | Some (v, m) =>
      let others :=
        if 1 <? length (m_tput m) then
          match get_others c i t (map fst (m_tput m)) m with
          | None => None
          | Some ([], m) => Some (None, m)
          | Some (vs, m) => Some (Some (if i =? 0 then median_low vs else median vs), m)
          end
        else Some (None, m) in
      match others with
      | None => None
      | Some (o, m) =>
          match v with
          | Some q =>
              if is_zero q then
                match get i (m_num m) with
                | None => None
                | Some (0, 0) => Some (if others_num i m <=? length (m_ids m) then None else v, o, m)
                | Some _ => Some (v, o, m)
                end
              else Some (v, o, m)
          | None => Some (v, o, m)
          end
      end
  end.

(** monitor.py:475-492 [is_instance_throughput_too_low], 456-466 [instance_throughput_ratio] *)
Definition too_slow (c : config) (i t : nat) (m : mon) : option (bool * mon) :=
  match get_throughputs c i t m with
  | None => None
  | Some (Some v, Some o, m) => Some (if is_zero o then false else negb (Qle_bool (delta c) (v / o)), m)
  | Some (_, _, m) => Some (false, m)
  end.

(** monitor.py:624-630 [getLatency] *)
Definition get_latency (c : config) (i : nat) (m : mon) : option (option Q) :=
  match m_lat m with
  | [] => Some (Some 0%Q)
  | _ => match get i (m_lat m) with None => None | Some l => Some (avg_latency c l) end
  end.
(** "if lat" *)
Definition truthy (v : option Q) : option Q := match v with Some q => if is_zero q then None else Some q | None => None end.
(** monitor.py:614-620 the loop of [getLatencies] *)
Fixpoint other_latencies (c : config) (i : nat) (ids : list nat) (m : mon) : option (list Q) :=
  match ids with
  | [] => Some []
  | j :: ids =>
      if i =? j then other_latencies c i ids m
      else match get_latency c j m, other_latencies c i ids m with
           | Some v, Some vs => Some (match truthy v with Some q => q :: vs | None => vs end)
           | _, _ => None
           end
  end.
(** monitor.py:521-541 [is_instance_avg_req_latency_too_high], 609-622 [getLatencies]; for the master *)
Definition too_late (c : config) (m : mon) : option bool :=
  match get_latency c 0 m, other_latencies c 0 (m_ids m) m with
  | Some v, Some [] => Some false
  | Some v, Some vs =>
      match truthy v, truthy (Some (median_high vs)) with
      | Some l, Some o => Some (Qle_bool (omega c) (l - o))
      | _, _ => Some false
      end
  | _, _ => None
  end.

(** monitor.py:425-439 [isMasterDegraded] *)
Definition master_degraded (c : config) (t : nat) (m : mon) : option (bool * mon) :=
  if existsb (Nat.eqb 0) (m_ids m) then
    match too_slow c 0 t m with
    | None => None
    | Some (true, m) => Some (true, m)
    | Some (false, m) => match too_late c m with None => None | Some b => Some (b, m) end
    end
  else Some (false, m).

(** monitor.py:441-454 [areBackupsDegraded], 450-453; instances.py:36-42 [backupIds] *)
Fixpoint slow_among (c : config) (t : nat) (ids : list nat) (m : mon) : option (list nat * mon) :=
  match ids with
  | [] => Some ([], m)
  | i :: ids =>
      if i =? 0 then slow_among c t ids m
      else match too_slow c i t m with
           | None => None
           | Some (b, m) =>
               match slow_among c t ids m with
               | None => None
               | Some (l, m) => Some (if b then i :: l else l, m)
               end
           end
  end.
Definition backups_degraded (c : config) (t : nat) (m : mon) : option (list nat * mon) := slow_among c t (m_ids m) m.

(** node.py:2269-2281 [_update_new_ordered_reqs_count] *)
Definition sum_num (m : mon) : nat := fold_right Nat.add 0 (map (fun x => fst (snd x)) (m_num m)).
(** node.py:2500-2545 [checkPerformance], of a node that participates and changes no view; the slow
    backups and whether the master is slow.  getThroughputs is called once more, for the metrics *)
Definition check_performance (c : config) (t : nat) (m : mon) : option (option (list nat * bool) * mon) :=
  if match m_last m with Some n => sum_num m =? n | None => false end then Some (None, m)
  else
    let m := Mon (m_ids m) (m_num m) (m_tput m) (m_lat m) (m_track m) (Some (sum_num m)) in
    if existsb (Nat.eqb 0) (m_ids m) then
      match get_throughputs c 0 t m with
      | None => None
      | Some (_, _, m) =>
          match backups_degraded c t m with
          | None => None
          | Some (l, m) =>
              match master_degraded c t m with
              | None => None
              | Some (b, m) => Some (Some (l, b), m)
              end
          end
      end
    else Some (None, m).

(** ** Histories *)
Inductive event :=
  | EAdd (i t : nat)                            (* replicas.py:32-50 add_replica *)
  | ERemove (i : nat)                           (* replicas.py:52-62 remove_replica *)
  | EReset (t : nat)                            (* node.py:632,1873,3175,3194 *)
  | EReceived (k t : nat)                       (* propagator.py:285 forward *)
  | EOrdered (i : nat) (ks : list nat) (t : nat) (known : list nat)  (* node.py:2175-2189,2224 processOrdered *)
  | EDrop (k : nat)                             (* node.py:3144 *)
  | ECheck (t : nat)                            (* check_unordered *)
  | EPerf (t : nat).                            (* checkPerformance *)

Definition step (c : config) (m : mon) (e : event) : option mon :=
  match e with
  | EAdd i t => Some (reset t (add_instance i t m))
  | ERemove i => if existsb (Nat.eqb i) (m_ids m) then remove_instance i m else Some m
  | EReset t => Some (reset t m)
  | EReceived k t => Some (request_unordered k t m)
  | EOrdered i ks t known => if existsb (Nat.eqb i) (m_ids m) then request_ordered c ks i t known m else Some m
  | EDrop k => Some (Mon (m_ids m) (m_num m) (m_tput m) (m_lat m) (tr_drop k (m_track m)) (m_last m))
  | ECheck t => match check_unordered c t m with None => None | Some (m, _) => Some m end
  | EPerf t => match check_performance c t m with None => None | Some (_, m) => Some m end
  end.
Fixpoint run (c : config) (m : mon) (es : list event) : option mon :=
  match es with [] => Some m | e :: es => match step c m e with None => None | Some m => run c m es end end.
