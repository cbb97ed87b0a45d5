(** C89: what the metrics of a node say. *)
From Coq Require Import List Arith NArith ZArith Bool Lia Permutation.
From Verif Require Import Dict Metrics_Model Metrics_Spec Metrics_Proofs.
Import ListNotations.

(** *** accumulators *)
(** values added one by one, in any order, and joined from parts cut anywhere, give the number of them, their sum, their sum of
    squares, the lowest and the highest *)
Theorem C89_accumulated : forall vs, fold_left acc_add vs empty_acc = summary vs.
Proof. exact built. Qed.
Theorem C89_parts : forall parts, fold_left acc_merge (map (fun vs => fold_left acc_add vs empty_acc) parts) empty_acc = summary (concat parts).
Proof.
  intros parts. assert (H : forall a, fold_left acc_merge (map (fun vs => fold_left acc_add vs empty_acc) parts) a = acc_merge a (summary (concat parts))).
  { induction parts as [|vs parts IH]; intros a; cbn [map fold_left concat]; [symmetry; apply merge_unit_r|]. rewrite IH, summary_app, built, merge_assoc. reflexivity. }
  rewrite H. apply merge_unit_l.
Qed.
Theorem C89_order : forall vs vs', Permutation vs vs' -> fold_left acc_add vs empty_acc = fold_left acc_add vs' empty_acc.
Proof. intros vs vs' P. rewrite !built. apply summary_perm, P. Qed.
(** the lowest is the lowest and the highest the highest *)
Theorem C89_bounds : forall vs v, In v vs -> exists lo hi, amin (fold_left acc_add vs empty_acc) = Some lo /\ amax (fold_left acc_add vs empty_acc) = Some hi /\
  (lo <= v <= hi)%Z /\ In lo vs /\ In hi vs.
Proof.
  intros vs. rewrite built. cbn [amin amax summary]. induction vs as [|w vs IH]; intros v I; [destruct I|]. rewrite lowest_cons, highest_cons.
  destruct vs as [|w' vs].
  - destruct I as [<-|[]]. exists w, w. cbn. repeat split; auto; lia.
  - destruct (IH w' (or_introl eq_refl)) as (lo & hi & A & B & _ & D & E). rewrite A, B. cbn [min_none max_none]. exists (Z.min w lo), (Z.max w hi).
    repeat split; [| |destruct (Z.min_spec w lo) as [(_ & ->)|(_ & ->)]; [left; reflexivity|right; exact D]|destruct (Z.max_spec w hi) as [(_ & ->)|(_ & ->)]; [right; exact E|left; reflexivity]].
    + destruct I as [<-|I]; [lia|]. destruct (IH v I) as (lo' & hi' & A' & B' & C' & _). rewrite A in A'. rewrite B in B'. injection A' as <-. injection B' as <-. lia.
    + destruct I as [<-|I]; [lia|]. destruct (IH v I) as (lo' & hi' & A' & B' & C' & _). rewrite A in A'. rewrite B in B'. injection A' as <-. injection B' as <-. lia.
Qed.
Example C89_accumulated_example : fold_left acc_add [3; -2; 7]%Z empty_acc = Acc 3 8 62 (Some (-2)%Z) (Some 7%Z).
Proof. reflexivity. Qed.
(** what is known of any values but none is told by the bytes *)
Theorem C89_bytes : forall vs, vs <> [] -> exists p, to_bytes (summary vs) = Some p /\ from_bytes p = summary vs.
Proof.
  intros vs N. destruct (pack_summary vs N) as (A & B). exists (pk vs). split; [exact A|]. destruct (pk vs) as [s|s c x y q]; exact B.
Qed.
(** an accumulator of nothing cannot be packed *)
Theorem C89_empty_refuted : to_bytes empty_acc = None.
Proof. reflexivity. Qed.

(** *** from the node to the report *)
(** for every history of additions and flushes, under a clock that keeps moving: no flush fails, and a report of any span of time
    tells of every known name all the values, and only those, that were flushed at a time within it *)
Theorem C89_loaded : forall clock os trunc is_name mn mx n, ~ In Close os -> good_clock clock (length (writes clock 0 [] os)) ->
  (forall m, mn = Some m -> (m < ts_mod)%N) ->
  exists c, run clock init os = Some c /\
    frame_get (total (load trunc is_name (kv c) mn mx)) n = summary (if is_name n then asked (within mn mx) n (writes clock 0 [] os) else []).
Proof.
  intros clock os trunc is_name mn mx n NC G B. destruct (run_ok clock os init [] eq_refl eq_refl eq_refl NC) as (c & E & K & _).
  exists c. split; [exact E|]. cbn [kv reads init] in K. set (ws := writes clock 0 [] os) in *.
  destruct (put_all_perm clock (length ws) ws [] 0 G (writes_timed clock os 0 [])) as (P & I); [lia|exact Logic.I|intros e []|]. cbn [app] in P. rewrite <- K in P, I.
  rewrite (load_ok trunc is_name (kv c) mn mx I B).
  rewrite (total_tot _ n) by (apply fold_good; intros f []). rewrite tot_fold. unfold tot at 1. cbn [map sum_frames fold_right]. rewrite merge_unit_l.
  rewrite (msum_perm n _ _ (perm_filter _ _ _ P)). destruct (is_name n) eqn:NM.
  - apply (entries_sum is_name clock (within mn mx) n ws 0 (length ws) NM G (writes_timed clock os 0 [])); [lia|intros w W; apply (writes_values clock os 0 [] w W)].
  - clear - NM. induction (entries 0 ws) as [|e l IH]; [reflexivity|]. cbn [filter]. destruct (is_name (fst (snd e)) && within mn mx (decode_ts (fst e))) eqn:Q; [|exact IH].
    cbn [msum fold_right]. destruct (Nat.eqb_spec n (fst (snd e))) as [->|_]; [rewrite NM in Q; discriminate|exact IH].
Qed.
(** and each frame of it, those at a time of that frame *)
Theorem C89_frames : forall clock os trunc is_name mn mx n t, ~ In Close os -> good_clock clock (length (writes clock 0 [] os)) ->
  (forall m, mn = Some m -> (m < ts_mod)%N) -> is_name n = true ->
  exists c, run clock init os = Some c /\
    frame_get (stat_get t (load trunc is_name (kv c) mn mx)) n = summary (asked (fun at_ => within mn mx at_ && (trunc at_ =? t)%N) n (writes clock 0 [] os)).
Proof.
  intros clock os trunc is_name mn mx n t NC G B NM. destruct (run_ok clock os init [] eq_refl eq_refl eq_refl NC) as (c & E & K & _).
  exists c. split; [exact E|]. cbn [kv reads init] in K. set (ws := writes clock 0 [] os) in *.
  destruct (put_all_perm clock (length ws) ws [] 0 G (writes_timed clock os 0 [])) as (P & I); [lia|exact Logic.I|intros e []|]. cbn [app] in P. rewrite <- K in P, I.
  rewrite (load_ok trunc is_name (kv c) mn mx I B). rewrite frame_fold. cbn [stat_get frame_get get_or get]. rewrite filter_filter.
  change (match get n (@nil (nat * acc)) with Some x => x | None => empty_acc end) with empty_acc. rewrite merge_unit_l.
  rewrite (msum_perm n _ _ (perm_filter _ _ _ P)).
  rewrite <- (entries_sum is_name clock (fun a => within mn mx a && (trunc a =? t)%N) n ws 0 (length ws) NM G (writes_timed clock os 0 []));
    [|lia|intros w W; apply (writes_values clock os 0 [] w W)].
  f_equal. apply filter_ext. intros e. apply eq_sym, andb_assoc.
Qed.
Definition ticks (i : nat) : N := (10 + N.of_nat i)%N.
Lemma ticks_good k : k < 1000 -> good_clock ticks k.
Proof.
  intros K. unfold good_clock, ticks. assert (T : ts_mod = 9007199254740992%N) by reflexivity. repeat split; intros; try rewrite T; lia.
Qed.
Definition history := [Add 1 5%Z; Add 2 1%Z; Add 1 7%Z; Flush; Flush; Add 1 2%Z; Add 9 4%Z; Flush; Add 1 100%Z].
Example C89_loaded_example : ~ In Close history /\ good_clock ticks (length (writes ticks 0 [] history)) /\
  map (fun w => (w_at w, w_name w, w_values w)) (writes ticks 0 [] history) =
    [(10%N, 1, [5%Z; 7%Z]); (11%N, 2, [1%Z]); (12%N, 1, [2%Z]); (13%N, 9, [4%Z])] /\
  asked (within None None) 1 (writes ticks 0 [] history) = [5; 7; 2]%Z /\ asked (within (Some 11%N) (Some 20%N)) 1 (writes ticks 0 [] history) = [2]%Z /\
  match run ticks init history with Some c => get 1 (total (load (fun t => t / 2)%N (fun n => n <? 5) (kv c) None None)) | None => None end = Some (Acc 3 14 78 (Some 2%Z) (Some 7%Z)).
Proof.
  split; [simpl; intuition discriminate|]. split; [apply ticks_good; simpl; lia|]. split; [reflexivity|]. split; [reflexivity|]. split; [reflexivity|].
  vm_compute. reflexivity.
Qed.
(** what is not flushed is not told *)
Theorem C89_unflushed : forall clock os c adds, run clock init os = Some c -> (forall o, In o adds -> exists n v, o = Add n v) ->
  exists c', run clock init (os ++ adds ++ [Close]) = Some c' /\ kv c' = kv c.
Proof.
  intros clock os c adds R A. rewrite run_app, R. clear R. revert c. induction adds as [|o adds IH]; intros c; [exists (close c); auto|].
  destruct (A o (or_introl eq_refl)) as (n & v & ->). cbn [app run step]. destruct (IH (fun o' I => A o' (or_intror I)) (add_event c n v)) as (c' & E & K).
  exists c'. split; [exact E|exact K].
Qed.
(** once it is closed nothing is stored, and nothing fails *)
Theorem C89_closed : forall clock os c os', run clock init os = Some c ->
  exists c', run clock init (os ++ Close :: os') = Some c' /\ kv c' = kv c.
Proof. intros clock os c os' R. rewrite run_app, R. cbn [run step]. apply (run_closed clock os' (close c) eq_refl). Qed.
Example C89_closed_example : option_map (fun c => length (kv c)) (run ticks init history) = Some 4 /\
  option_map (fun c => length (kv c)) (run ticks init (history ++ Close :: [Flush; Add 1 1%Z; Flush])) = Some 4.
Proof. split; vm_compute; reflexivity. Qed.

(** *** the clock *)
(** without a moving clock no more than 2048 entries are kept, whatever is added *)
Theorem C89_tick_refuted : forall t os c, run (fun _ => t) init os = Some c -> (N.of_nat (length (kv c)) <= 2048)%N.
Proof.
  intros t os c R. destruct (run_tick t os init c) as (A & B); [exact I|intros e []|exact R|]. exact (tick_length t (kv c) A B).
Qed.
(** and after 2^53 microseconds the times are those of the first *)
Theorem C89_wrap_refuted : forall t seq, encode_key (t + ts_mod) seq = encode_key t seq.
Proof.
  intros t s. unfold encode_key. rewrite <- (N.mul_1_l ts_mod) at 1. rewrite N.mod_add by discriminate. reflexivity.
Qed.

(** A single value that is stored is what is read at its time, also if something was stored there. *)
Theorem C89_single : forall clock c n x, closed c = false -> exists c' p, store_event clock c n (Float x) = Some c' /\
  In (encode_key (clock (reads c)) (seq_no c), (n, p)) (kv c') /\ decode_value p = Float x.
Proof.
  intros clock c n x C. unfold store_event. rewrite C. cbn [encode_value].
  assert (P : forall k v s, In (k, v) (put k v s)).
  { intros k v s. induction s as [|(k', v') s IH]; cbn [put]; [left; reflexivity|]. destruct (k <? k')%N; [left; reflexivity|].
    destruct (k =? k')%N; [left; reflexivity|right; exact IH]. }
  eexists. exists (One x). split; [reflexivity|]. cbn [kv]. split; [apply P|reflexivity].
Qed.
Example C89_single_example : option_map (fun c => kv c) (store_event (fun _ => 5%N) (Collector [(encode_key 5 0, (1, One 3))] false 0 [] 0) 2 (Float 7)) =
  Some [(encode_key 5 0, (2, One 7%Z))].
Proof. vm_compute. reflexivity. Qed.

Print Assumptions C89_single.
Print Assumptions C89_accumulated.
Print Assumptions C89_parts.
Print Assumptions C89_order.
Print Assumptions C89_bounds.
Print Assumptions C89_bytes.
Print Assumptions C89_empty_refuted.
Print Assumptions C89_loaded.
Print Assumptions C89_frames.
Print Assumptions C89_unflushed.
Print Assumptions C89_closed.
Print Assumptions C89_tick_refuted.
Print Assumptions C89_wrap_refuted.
