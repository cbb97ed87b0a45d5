(** Model of metrics: plenum/common/value_accumulator.py, plenum/common/metrics_collector.py:330-446,
    plenum/common/metrics_stats.py.  Measured values are whole numbers (floats in the code: sums are not rounded here);
    times are whole microseconds; packing a number into 8 bytes is not modelled.  Names are numbers.  Not modelled: averages,
    deviations, text output, [measure_time]. *)
From Coq Require Import List Arith NArith ZArith Bool.
From Verif Require Import Dict.
Import ListNotations.

(** *** value_accumulator.py *)
Record acc := Acc { count : nat; sum : Z; sumsq : Z; amin : option Z; amax : option Z }.
(** value_accumulator.py:7-18: [min], [max], where one may be [None] *)
Definition min_none (a b : option Z) : option Z := match a, b with Some x, Some y => Some (Z.min x y) | Some x, None => Some x | None, _ => b end.
Definition max_none (a b : option Z) : option Z := match a, b with Some x, Some y => Some (Z.max x y) | Some x, None => Some x | None, _ => b end.
(** value_accumulator.py:22-34: made of nothing and of one value *)
Definition empty_acc : acc := Acc 0 0 0 None None.
Definition acc_of (v : Z) : acc := Acc 1 v (v * v) (Some v) (Some v).
(** value_accumulator.py:36-48 *)
Definition acc_add (a : acc) (v : Z) : acc := Acc (S (count a)) (sum a + v) (sumsq a + v * v) (min_none (amin a) (Some v)) (max_none (amax a) (Some v)).
Definition acc_merge (a b : acc) : acc :=
  Acc (count a + count b) (sum a + sum b) (sumsq a + sumsq b) (min_none (amin a) (amin b)) (max_none (amax a) (amax b)).
(** value_accumulator.py:50-62: 8 bytes or 40 bytes; [None]: [struct.pack] raises for a missing minimum *)
Inductive packed := One (s : Z) | Many (s : Z) (c : nat) (mn mx q : Z).
Definition to_bytes (a : acc) : option packed :=
  if count a =? 1 then Some (One (sum a))
  else match amin a, amax a with Some x, Some y => Some (Many (sum a) (count a) x y (sumsq a)) | _, _ => None end.
Definition from_bytes (p : packed) : acc := match p with One s => acc_of s | Many s c x y q => Acc c s q (Some x) (Some y) end.

(** *** metrics_collector.py:389-425 [KvStoreMetricsFormat] *)
Definition ts_mod : N := 9007199254740992. (* 2^53 *)
Definition seq_mod : N := 2048.            (* 2^11 *)
Definition encode_key (ts seq : N) : N := (ts mod ts_mod) * seq_mod + seq mod seq_mod.
Inductive value := Float (v : Z) | Accum (a : acc).
Definition encode_value (v : value) : option packed := match v with Float x => Some (One x) | Accum a => to_bytes a end.
(** [decode]: 8 bytes are a float *)
Definition decode_value (p : packed) : value := match p with One s => Float s | Many _ _ _ _ _ => Accum (from_bytes p) end.
Definition decode_ts (key : N) : N := key / seq_mod.

(** *** the store, in the order of its keys *)
Notation store := (list (N * (nat * packed))).
Fixpoint put (k : N) (v : nat * packed) (s : store) : store :=
  match s with
  | [] => [(k, v)]
  | (k', v') :: r => if (k <? k')%N then (k, v) :: s else if (k =? k')%N then (k, v) :: r else (k', v') :: put k v r
  end.

(** *** metrics_collector.py:330-346, 428-446 *)
Record collector := Collector { kv : store; closed : bool; seq_no : N; accs : dict acc; reads : nat (** of the clock *) }.
Section Clock.
Variable clock : nat -> N.
Definition add_event (c : collector) (n : nat) (v : Z) : collector :=
  Collector (kv c) (closed c) (seq_no c) (set n (acc_add (get_or n empty_acc (accs c)) v) (accs c)) (reads c).
(** [None]: packing raises *)
Definition store_event (c : collector) (n : nat) (v : value) : option collector :=
  if closed c then Some c
  else match encode_value v with
       | Some p => Some (Collector (put (encode_key (clock (reads c)) (seq_no c)) (n, p) (kv c)) false ((seq_no c + 1) mod seq_mod) (accs c) (S (reads c)))
       | None => None
       end.
Fixpoint store_all (c : collector) (l : dict acc) : option collector :=
  match l with [] => Some c | (n, a) :: r => match store_event c n (Accum a) with Some c' => store_all c' r | None => None end end.
Definition flush (c : collector) : option collector :=
  match store_all c (accs c) with Some c' => Some (Collector (kv c') (closed c') (seq_no c') [] (reads c')) | None => None end.
Definition close (c : collector) : collector := Collector (kv c) true (seq_no c) (accs c) (reads c).
Inductive op := Add (n : nat) (v : Z) | Flush | Close.
Definition step (c : collector) (o : op) : option collector :=
  match o with Add n v => Some (add_event c n v) | Flush => flush c | Close => Some (close c) end.
Fixpoint run (c : collector) (os : list op) : option collector :=
  match os with [] => Some c | o :: r => match step c o with Some c' => run c' r | None => None end end.
Definition init : collector := Collector [] false 0 [] 0.
End Clock.

(** *** metrics_stats.py *)
(** metrics_stats.py:19-35 [MetricsStatsFrame] *)
Notation frame := (dict acc).
Definition frame_get (f : frame) (n : nat) : acc := get_or n empty_acc f.
Definition frame_add (f : frame) (n : nat) (v : value) : frame :=
  set n (match v with Accum a => acc_merge (frame_get f n) a | Float x => acc_add (frame_get f n) x end) f.
Definition frame_merge (f g : frame) : frame := fold_left (fun f e => set (fst e) (acc_merge (frame_get f (fst e)) (snd e)) f) g f.
(** metrics_stats.py:46-60: frames by the start of their period; [trunc]: [trunc_ts] (metrics_stats.py:11-16) *)
Notation stats := (list (N * frame)).
Fixpoint stat_get (t : N) (s : stats) : frame := match s with [] => [] | (t', f) :: r => if (t =? t')%N then f else stat_get t r end.
Fixpoint stat_set (t : N) (f : frame) (s : stats) : stats :=
  match s with [] => [(t, f)] | (t', f') :: r => if (t =? t')%N then (t, f) :: r else (t', f') :: stat_set t f r end.
Section Load.
Variable trunc : N -> N.
(** is it a name that is known (metrics_collector.py:413)? *)
Variable is_name : nat -> bool.
Definition stat_add (s : stats) (ts : N) (n : nat) (v : value) : stats := stat_set (trunc ts) (frame_add (stat_get (trunc ts) s) n v) s.
(** metrics_stats.py:105-118: from the first key not below the start, up to the first time after the end *)
Fixpoint load_from (max : option N) (l : store) (s : stats) : stats :=
  match l with
  | [] => s
  | (k, (n, p)) :: r =>
      if is_name n
      then match max with
           | Some m => if (m <? decode_ts k)%N then s else load_from max r (stat_add s (decode_ts k) n (decode_value p))
           | None => load_from max r (stat_add s (decode_ts k) n (decode_value p))
           end
      else load_from max r s
  end.
Definition load (st : store) (mn mx : option N) : stats :=
  load_from mx (match mn with Some m => filter (fun e => (encode_key m 0 <=? fst e)%N) st | None => st end) [].
End Load.
(** metrics_stats.py:90-102 [merge_all] *)
Fixpoint merge_all (fuel : nat) (fs : list frame) : frame :=
  match fuel with
  | 0 => []
  | S fuel => match fs with
              | [] => []
              | [f] => f
              | _ => frame_merge (merge_all fuel (firstn (length fs / 2) fs)) (merge_all fuel (skipn (length fs / 2) fs))
              end
  end.
Definition total (s : stats) : frame := merge_all (length s) (map snd s).
