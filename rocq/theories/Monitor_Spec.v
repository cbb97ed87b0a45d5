(** C73: specification of the monitor of instances, on histories.

    Histories [h] are lists of events, the newest first. *)
From Coq Require Import List Arith Bool ZArith QArith Sorted.
From Verif Require Import Base Dict Tput_Spec Monitor_Model.
Import ListNotations.
Open Scope nat_scope.

(** The instances that are there *)
Fixpoint ids (h : list event) : list nat :=
  match h with
  | [] => []
  | EAdd i _ :: h => add i (ids h)
  | ERemove i :: h => discard i (ids h)
  | _ :: h => ids h
  end.
(** The time at which the measures were started: the last reset; adding an instance is one *)
Fixpoint base (h : list event) : nat :=
  match h with [] => 0 | EReset t :: _ => t | EAdd _ t :: _ => t | _ :: h => base h end.

(** Request [k] was received at [t] and waits for instance [i]: the instance was there, and since then
    there was no reset, the request was not dropped or received again, the instance was not removed and
    did not order it *)
Definition ends (k i : nat) (e : event) : Prop :=
  match e with
  | EReset _ | EAdd _ _ => True
  | EDrop k' => k' = k
  | EReceived k' _ => k' = k
  | ERemove j => j = i
  | EOrdered j ks _ _ => j = i /\ In k ks
  | ECheck _ | EPerf _ => False
  end.
Definition waits (h : list event) (k t i : nat) : Prop :=
  exists later older, h = later ++ EReceived k t :: older /\ In i (ids older) /\ forall e, In e later -> ~ ends k i e.

(** The same as a function: the time of a request and the instances it waits for; none when it waits
    for no instance *)
Definition less (i : nat) (p : option (nat * list nat)) : option (nat * list nat) :=
  match p with
  | Some (t, l) => match discard i l with [] => None | l' => Some (t, l') end
  | None => None
  end.
Fixpoint waiting (h : list event) (k : nat) : option (nat * list nat) :=
  match h with
  | [] => None
  | EReset _ :: _ | EAdd _ _ :: _ => None
  | EDrop k' :: h => if k' =? k then None else waiting h k
  | EReceived k' t :: h => if k' =? k then match ids h with [] => None | l => Some (t, l) end else waiting h k
  | ERemove i :: h => less i (waiting h k)
  | EOrdered i ks _ _ :: h => if existsb (Nat.eqb k) ks then less i (waiting h k) else waiting h k
  | _ :: h => waiting h k
  end.

(** Requests that are counted when instance [i] orders the batch [ks] at [t], one after the other, with the times they were received at:
    those that wait for some instance *)
Fixpoint takes (h : list event) (i t : nat) (known ks : list nat) : list (nat * nat) :=
  match ks with
  | [] => []
  | k :: ks =>
      match waiting h k with Some (tk, _) => [(k, tk)] | None => [] end ++
      takes (EOrdered i [k] t known :: h) i t known ks
  end.
Definition has (i : nat) (h : list event) : bool := existsb (Nat.eqb i) (ids h).
(** The times at which instance [i] ordered the requests that are counted, since the last reset *)
Fixpoint times (h : list event) (i : nat) : list nat :=
  match h with
  | [] => []
  | EReset _ :: _ | EAdd _ _ :: _ => []
  | EOrdered j ks t known :: h =>
      if (j =? i) && has j h then times h i ++ map (fun _ => t) (takes h i t known ks) else times h i
  | _ :: h => times h i
  end.
(** How long they took, for those the node knows the request of *)
Fixpoint durations (h : list event) (i : nat) : list nat :=
  match h with
  | [] => []
  | EReset _ :: _ | EAdd _ _ :: _ => []
  | EOrdered j ks t known :: h =>
      if (j =? i) && has j h
      then durations h i ++ map (fun x => t - snd x) (filter (fun x => existsb (Nat.eqb (fst x)) known) (takes h i t known ks))
      else durations h i
  | _ :: h => durations h i
  end.
(** How many they are, where a request that occurs several times in a batch counts once *)
Definition is_waiting (h : list event) (k : nat) : bool := match waiting h k with Some _ => true | None => false end.
Fixpoint number (h : list event) (i : nat) : nat :=
  match h with
  | [] => 0
  | EReset _ :: _ | EAdd _ _ :: _ => 0
  | EOrdered j ks _ _ :: h =>
      if (j =? i) && has j h then number h i + length (nodup Nat.eq_dec (filter (is_waiting h) ks)) else number h i
  | _ :: h => number h i
  end.

(** The measured throughput of an instance at [t], as in C72: none in the first windows and while
    an idle instance comes back; otherwise a moving average *)
Definition speed (c : config) (h : list event) (t i : nat) : option Q :=
  let w := Tput_Model.window (tput c) in
  let n := Tput_Model.min_cnt (tput c) in
  let l := counts w (base h) (times h i) (window_of w (base h) t) in
  if (t <? base h + w * n) || reviving n l then None
  else Some (ema (2 # Pos.of_succ_nat n) (map (fun x => x / (Z.of_nat w # 1))%Q (levelled n l))).
(** The average latency of an instance: none for few requests *)
Definition delay (c : config) (h : list event) (i : nat) : option Q :=
  let ds := durations h i in
  if length ds <? min_latency c then None
  else Some (ema (1 # Pos.of_succ_nat (min_latency c)) (map (fun d => Z.of_nat d # 1) ds)).

(** Medians: [m] is the element at place [j], from 0, when [l] is sorted *)
Definition below (m : Q) (l : list Q) : nat := length (filter (fun x => negb (Qle_bool m x)) l).
Definition upto (m : Q) (l : list Q) : nat := length (filter (fun x => Qle_bool x m) l).
Definition at_place (j : nat) (l : list Q) (m : Q) : Prop := below m l <= j < upto m l.
Definition low_median (l : list Q) (m : Q) : Prop := at_place ((length l - 1) / 2) l m.
Definition high_median (l : list Q) (m : Q) : Prop := at_place (length l / 2) l m.
Definition mid_median (l : list Q) (m : Q) : Prop :=
  exists a b, low_median l a /\ high_median l b /\ (m == (a + b) / 2)%Q.

Definition present (l : list (option Q)) : list Q := flat_map (fun v => match v with Some q => [q] | None => [] end) l.
(** The values of the other instances *)
Definition others (h : list event) (i : nat) (v : nat -> option Q) : list Q :=
  present (map v (filter (fun j => negb (j =? i)) (ids h))).
(** Too early to tell: nothing was ordered, and the others ordered few requests *)
Definition early (h : list event) (i : nat) : Prop :=
  number h i = 0 /\ fold_right Nat.add 0 (map (number h) (filter (fun j => negb (j =? i)) (ids h))) <= length (ids h).
(** Instance [i] is slow, given the measures: its throughput is below delta times the median of the
    others (the lower one for the master) *)
Definition slow (c : config) (h : list event) (i : nat) (v : nat -> option Q) : Prop :=
  exists q m, v i = Some q /\ ~ ((q == 0)%Q /\ early h i) /\ others h i v <> [] /\
    (if i =? 0 then low_median (others h i v) m else mid_median (others h i v) m) /\ (0 < m)%Q /\ (q < delta c * m)%Q.
(** The master is late, given the latencies: by omega over the higher median of the others *)
Definition nonzero (v : nat -> option Q) (i : nat) : option Q := match v i with Some q => if Qeq_bool q 0 then None else Some q | None => None end.
Definition late (c : config) (h : list event) (v : nat -> option Q) : Prop :=
  exists q m, v 0 = Some q /\ ~ (q == 0)%Q /\ others h 0 (nonzero v) <> [] /\ high_median (others h 0 (nonzero v)) m /\
    (omega c <= q - m)%Q.

(** The requests ordered by all instances, and what they were at the last check of performance *)
Definition total (h : list event) : nat := fold_right Nat.add 0 (map (number h) (ids h)).
Fixpoint last_total (h : list event) : option nat :=
  match h with [] => None | EPerf _ :: h => Some (total h) | _ :: h => last_total h end.

(** Histories of a node: it starts with instance 0, which stays; times do not go back, up to [t] *)
Definition time_of (e : event) : list nat :=
  match e with
  | EAdd _ t | EReset t | EReceived _ t | EOrdered _ _ t _ | ECheck t | EPerf t => [t]
  | ERemove _ | EDrop _ => []
  end.
Definition well_formed (h : list event) (t : nat) : Prop :=
  (exists t0 h', h = h' ++ [EAdd 0 t0]) /\ ~ In (ERemove 0) h /\ StronglySorted ge (t :: flat_map time_of h).
