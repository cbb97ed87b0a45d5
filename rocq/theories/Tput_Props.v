(** C72: the measure of the throughput of an instance.  Theorems about Tput_Model.v; the
    specification is Tput_Spec.v. *)
From Coq Require Import List Arith Bool ZArith QArith Lia Sorted.
From Verif Require Import Tput_Model Tput_Spec Tput_Proofs.
Import ListNotations.
Open Scope nat_scope.

(** ** Specification (with Tput_Spec.v) *)
(** Requests per unit of time, from requests per window *)
Definition per_time (w : nat) (x : Q) : Q := (x / (Z.of_nat w # 1))%Q.
(** The calls come in the order of their times, from the start [t0], and the last query at [ts] after them *)
Definition in_order (t0 : nat) (cs : list call) (ts : nat) : Prop := StronglySorted le (t0 :: map time cs ++ [ts]).
(** The windows that are over at [ts], with the numbers of requests ordered in them *)
Definition seen (p : params) (t0 : nat) (cs : list call) (ts : nat) : list nat :=
  counts (window p) t0 (adds cs) (window_of (window p) t0 ts).
(** What is answered at [ts], after the calls [cs] on a measure started at [t0] *)
Definition answer (p : params) (t0 : nat) (cs : list call) (ts : nat) (v : option Q) : Prop :=
  exists s s', run p (init t0) cs = Some s /\ get_throughput p ts s = Some (v, s').

Lemma ema_emaf a l : ema a l = emaf a 0 l.
Proof. reflexivity. Qed.

(** Whatever the calls and their times: no call raises, none runs for ever *)
Theorem C72_total : forall p t0 cs ts, 0 < window p -> 2 <= min_cnt p -> exists v, answer p t0 cs ts v.
Proof.
  intros p t0 cs ts Hw Hn.
  destruct (run_total p Hw (Rel p) (Rel_step p Hw Hn) (fun l s n => agrees_riw p _ s n) (cs ++ [Get ts]) [] (init t0) (init_agrees p t0))
    as (s' & l & E & H).
  assert (Happ : forall xs ys s, run p s (xs ++ ys) = match run p s xs with None => None | Some s => run p s ys end).
  { induction xs as [|x xs IH]; intros ys s; cbn; [reflexivity|]. destruct (do_call p s x); [apply IH|reflexivity]. }
  rewrite Happ in E. destruct (run p (init t0) cs) as [s|] eqn:Es; [|discriminate].
  cbn [run do_call] in E. destruct (get_throughput p ts s) as [(v, s2)|] eqn:Eg; [|discriminate].
  exists v, s, s2. split; [exact Es|exact Eg].
Qed.

(** The measure: none in the first windows, none in a revival, otherwise the moving average of the
    levelled numbers *)
Theorem C72_measure : forall p t0 cs ts, 0 < window p -> 2 <= min_cnt p -> in_order t0 cs ts ->
  exists v, answer p t0 cs ts v /\
    if (ts <? t0 + window p * min_cnt p) || reviving (min_cnt p) (seen p t0 cs ts) then v = None
    else exists q, v = Some q /\
      (q == ema (2 # Pos.of_succ_nat (min_cnt p)) (map (per_time (window p)) (levelled (min_cnt p) (seen p t0 cs ts))))%Q.
Proof.
  intros p t0 cs ts Hw Hn Ho.
  destruct (get_spec p Hw (Rel p) (Rel_step p Hw Hn) (fun l s n => agrees_riw p _ s n) t0 (init_agrees p t0) cs ts Ho) as (s & E & H).
  unfold answer. destruct (ts <? t0 + window p * min_cnt p); cbn [orb].
  - exists None. split; [|reflexivity]. exists s, s. split; assumption.
  - destruct H as (s' & Eg & HR). exists (thr s'). split; [exists s, s'; split; assumption|].
    pose proof (Rel_thr p _ s' Hn HR) as Ht. unfold seen.
    destruct (reviving (min_cnt p) (counts (window p) t0 (adds cs) (window_of (window p) t0 ts))); exact Ht.
Qed.

(** Levelling moves requests between windows and loses none *)
Theorem C72_levelled : forall n l, length (levelled n l) = length l /\ (qsum (levelled n l) == Z.of_nat (total l) # 1)%Q.
Proof.
  intros n l. rewrite levelled_lev. split.
  - rewrite lev_length, stretches_flat. reflexivity.
  - rewrite lev_sum, stretches_flat. reflexivity.
Qed.

(** A measure is not negative and not above the highest rate of a window *)
Theorem C72_bounds : forall p t0 cs ts q M, 0 < window p -> 2 <= min_cnt p -> in_order t0 cs ts ->
  answer p t0 cs ts (Some q) -> (forall c, In c (seen p t0 cs ts) -> c <= M) ->
  (0 <= q /\ q <= per_time (window p) (Z.of_nat M # 1))%Q.
Proof.
  intros p t0 cs ts q M Hw Hn Ho (s & s' & E & Eg) HM.
  destruct (C72_measure p t0 cs ts Hw Hn Ho) as (v & (s1 & s1' & E1 & Eg1) & H).
  assert (s1 = s) by congruence. subst s1. rewrite Eg in Eg1. injection Eg1 as <- <-.
  destruct (_ || _); [discriminate|]. destruct H as (q' & Hq & H). injection Hq as <-. rewrite H.
  change (2 # Pos.of_succ_nat (min_cnt p))%Q with (alpha p). rewrite ema_emaf. apply emaf_bounds.
  - apply Qlt_le_weak. apply alpha_pos.
  - apply alpha_le. lia.
  - apply Forall_forall. intros x Hx. apply in_map_iff in Hx. destruct Hx as (y & <- & Hy).
    apply per_within; [exact Hw|]. rewrite levelled_lev in Hy.
    pose proof (within_lev (min_cnt p) (stretches (seen p t0 cs ts)) M) as Hl. rewrite stretches_flat in Hl.
    assert (Hf : Forall (fun c => c <= M) (seen p t0 cs ts)) by (apply Forall_forall; exact HM).
    specialize (Hl Hf). rewrite Forall_forall in Hl. exact (Hl y Hy).
  - apply Qle_refl.
  - destruct (per_within (window p) M 0 Hw) as (H1 & H2); [unfold within, Qle; cbn; lia|].
    rewrite per_0 in H2. exact H2.
Qed.

(** The same number of requests in every window: the measure is there after the first windows and
    comes nearer to the rate with each one *)
Theorem C72_steady : forall p t0 cs ts k, 0 < window p -> 2 <= min_cnt p -> in_order t0 cs ts ->
  t0 + window p * min_cnt p <= ts -> 0 < k -> seen p t0 cs ts = repeat k (window_of (window p) t0 ts) ->
  exists q, answer p t0 cs ts (Some q) /\
    (q == per_time (window p) (Z.of_nat k # 1) * (1 - qpow (1 - (2 # Pos.of_succ_nat (min_cnt p))) (window_of (window p) t0 ts)))%Q.
Proof.
  intros p t0 cs ts k Hw Hn Ho Hts Hk Hseen.
  destruct (C72_measure p t0 cs ts Hw Hn Ho) as (v & Ha & H). rewrite Hseen in H.
  assert (Hge : min_cnt p <= window_of (window p) t0 ts).
  { unfold window_of. apply Nat.div_le_lower_bound; [lia|]. lia. }
  rewrite reviving_steady in H by lia.
  replace (ts <? t0 + window p * min_cnt p) with false in H by (symmetry; apply Nat.ltb_ge; exact Hts).
  cbn [orb] in H. destruct H as (q & -> & Hq). exists q. split; [exact Ha|]. rewrite Hq, ema_emaf.
  set (a := (2 # Pos.of_succ_nat (min_cnt p))%Q). set (m := window_of (window p) t0 ts).
  transitivity (emaf a 0 (repeat (per_time (window p) (Z.of_nat k # 1)) m)).
  - apply emaf_eqs; [|reflexivity]. rewrite <- (map_rep (per_time (window p)) (Z.of_nat k # 1)%Q m).
    assert (Hf : Forall2 Qeq (levelled (min_cnt p) (repeat k m)) (repeat (Z.of_nat k # 1)%Q m)) by (apply levelled_steady; lia).
    clear -Hf. induction Hf; cbn; constructor; [|assumption]. unfold per_time. rewrite H. reflexivity.
  - rewrite emaf_const. ring.
Qed.

(** Windows without requests: the measure is there, and shrinks by the same factor in each one *)
Theorem C72_idle : forall p t0 cs ts l m, 0 < window p -> 2 <= min_cnt p -> in_order t0 cs ts ->
  t0 + window p * min_cnt p <= ts -> 0 < m -> seen p t0 cs ts = l ++ repeat 0 m ->
  exists q, answer p t0 cs ts (Some q) /\
    (q == ema (2 # Pos.of_succ_nat (min_cnt p)) (map (per_time (window p)) (levelled (min_cnt p) l)) *
          qpow (1 - (2 # Pos.of_succ_nat (min_cnt p))) m)%Q.
Proof.
  intros p t0 cs ts l m Hw Hn Ho Hts Hm Hseen.
  destruct (C72_measure p t0 cs ts Hw Hn Ho) as (v & Ha & H). rewrite Hseen in H.
  assert (Hr : reviving (min_cnt p) (l ++ repeat 0 m) = false).
  { destruct m as [|m]; [lia|]. rewrite repeat_snoc, app_assoc. apply reviving_0. }
  rewrite Hr in H. replace (ts <? t0 + window p * min_cnt p) with false in H by (symmetry; apply Nat.ltb_ge; exact Hts).
  cbn [orb] in H. destruct H as (q & -> & Hq). exists q. split; [exact Ha|]. rewrite Hq.
  rewrite levelled_zeros, map_app, !ema_emaf, emaf_app.
  set (a := (2 # Pos.of_succ_nat (min_cnt p))%Q).
  transitivity (emaf a (emaf a 0 (map (per_time (window p)) (levelled (min_cnt p) l))) (repeat 0%Q m)).
  - apply emaf_eqs; [|reflexivity]. rewrite map_rep. clear. induction m; cbn; constructor; [unfold per_time, Qdiv; ring|assumption].
  - rewrite emaf_const. ring.
Qed.

(** The measure is not absent for long: after an empty window, and after min_cnt windows with
    requests, it is there (when the first windows are over) *)
Theorem C72_back : forall p t0 cs ts l b, 0 < window p -> 2 <= min_cnt p -> in_order t0 cs ts ->
  t0 + window p * min_cnt p <= ts -> seen p t0 cs ts = l ++ b ->
  b = [0] \/ (length b = min_cnt p /\ (forall c, In c b -> c <> 0)) ->
  exists q, answer p t0 cs ts (Some q).
Proof.
  intros p t0 cs ts l b Hw Hn Ho Hts Hseen Hb.
  destruct (C72_measure p t0 cs ts Hw Hn Ho) as (v & Ha & H). rewrite Hseen in H.
  assert (Hr : reviving (min_cnt p) (l ++ b) = false).
  { destruct Hb as [->|(Hlen & Hb)]; [apply reviving_0|].
    assert (Hx : forall b' l', (forall c, In c b' -> c <> 0) -> exists ini e x, stretches (l' ++ b') = ini ++ [(e, x)] /\ length b' <= length x).
    { induction b' as [|c b' IH] using rev_ind; intros l' Hc.
      - destruct (stretches_form (l' ++ [])) as (ini & e & x & E). exists ini, e, x. split; [exact E|cbn; lia].
      - destruct (IH l') as (ini & e & x & E & Hl); [intros d Hd; apply Hc; apply in_or_app; left; exact Hd|].
        exists ini, e, (x ++ [c]). rewrite app_assoc, stretches_snoc, E, push_form.
        destruct (c =? 0) eqn:Ec; [exfalso; apply Nat.eqb_eq in Ec; apply (Hc c); [apply in_or_app; right; left; reflexivity|exact Ec]|].
        split; [reflexivity|]. rewrite !app_length. cbn. lia. }
    destruct (Hx b l Hb) as (ini & e & x & E & Hl). rewrite (reviving_snoc _ _ _ _ E). unfold reviving_stretch. cbn [snd].
    replace (length x <? min_cnt p) with false by (symmetry; apply Nat.ltb_ge; lia). apply andb_false_r. }
  rewrite Hr in H. replace (ts <? t0 + window p * min_cnt p) with false in H by (symmetry; apply Nat.ltb_ge; exact Hts).
  cbn [orb] in H. destruct H as (q & -> & _). exists q. exact Ha.
Qed.

(** ** What does not hold *)
(** With min_cnt = 1 an instance that orders requests in every window is never measured *)
Theorem C72_one_refuted : forall p t0 cs ts, 0 < window p -> min_cnt p = 1 -> in_order t0 cs ts ->
  0 < window_of (window p) t0 ts -> (forall c, In c (seen p t0 cs ts) -> c <> 0) -> answer p t0 cs ts None.
Proof.
  intros p t0 cs ts Hw Hn Ho Hpos Hb.
  destruct (get_spec p Hw (Rel1 p) (Rel1_step p Hn) (fun l s n => Rel1_riw p l s n) t0 (Rel1_init p t0) cs ts Ho) as (s & E & H).
  unfold answer. destruct (ts <? t0 + window p * min_cnt p).
  - exists s, s. split; assumption.
  - destruct H as (s' & Eg & (_ & Hm & _ & Hl)). exists s, s'. split; [exact E|].
    unfold seen in Hb. rewrite Hl in Hm.
    + destruct Hm as (k & r & _ & _ & Ht). rewrite Eg, Ht. reflexivity.
    + intros Hnil. apply (f_equal (@length nat)) in Hnil. unfold counts in Hnil. rewrite map_length, seq_length in Hnil. cbn in Hnil. lia.
    + apply Forall_forall. exact Hb.
Qed.

(** Adds for given numbers of requests in windows of length 1 *)
Fixpoint ordering (t : nat) (l : list nat) : list call :=
  match l with [] => [] | c :: l => repeat (Add t) c ++ ordering (S t) l end.

(** An instance that ordered at least as many requests as another one in every window, and is measured
    as slower *)
Theorem C72_more_refuted : exists p cs1 cs2 ts q1 q2, 0 < window p /\ 2 <= min_cnt p /\ in_order 0 cs1 ts /\ in_order 0 cs2 ts /\
  (forall i, count_in (window p) 0 (adds cs1) i <= count_in (window p) 0 (adds cs2) i) /\
  answer p 0 cs1 ts (Some q1) /\ answer p 0 cs2 ts (Some q2) /\ (q2 < q1)%Q.
Proof.
  set (cs1 := ordering 0 [1; 0; 5]). set (cs2 := ordering 0 [1; 1; 5]).
  assert (H : exists q1 q2 s1 s2 s3 s4, run (Params 1 3) (init 0) cs1 = Some s1 /\ get_throughput (Params 1 3) 3 s1 = Some (Some q1, s2) /\
     run (Params 1 3) (init 0) cs2 = Some s3 /\ get_throughput (Params 1 3) 3 s3 = Some (Some q2, s4) /\ (q2 < q1)%Q).
  { do 6 eexists. split; [vm_compute; reflexivity|]. split; [vm_compute; reflexivity|]. split; [vm_compute; reflexivity|].
    split; [vm_compute; reflexivity|]. vm_compute. reflexivity. }
  destruct H as (q1 & q2 & s1 & s2 & s3 & s4 & H1 & H2 & H3 & H4 & H5).
  assert (Hs : forall cs, (cs = cs1 \/ cs = cs2) -> in_order 0 cs 3).
  { intros cs [-> | ->]; unfold in_order; repeat constructor. }
  exists (Params 1 3), cs1, cs2, 3, q1, q2. cbn [window min_cnt].
  split; [lia|]. split; [lia|]. split; [apply Hs; left; reflexivity|]. split; [apply Hs; right; reflexivity|].
  split.
  - intros i. change (adds cs1) with [0; 2; 2; 2; 2; 2]. change (adds cs2) with [0; 1; 2; 2; 2; 2; 2].
    unfold count_in. cbn [filter]. destruct (window_of 1 0 0 =? i), (window_of 1 0 1 =? i), (window_of 1 0 2 =? i); cbn [length]; lia.
  - split; [exists s1, s2; split; assumption|]. split; [exists s3, s4; split; assumption|exact H5].
Qed.

(** ** Examples *)
(** Windows of 2, counts of 3.  Requests at 1, 2, 3; nothing till 14; requests at 14 and 15. *)
Definition ex_p := Params 2 3.
Definition ex_calls := [Add 1; Get 1; Add 2; Add 3; Get 9; Add 14; Add 15; Get 15].
Example ex_in_order : in_order 0 ex_calls 18.
Proof. unfold in_order. repeat constructor. Qed.
Example ex_seen : seen ex_p 0 ex_calls 18 = [1; 2; 0; 0; 0; 0; 0; 2; 0].
Proof. reflexivity. Qed.
Example ex_reviving : reviving 3 (seen ex_p 0 ex_calls 16) = true /\ reviving 3 (seen ex_p 0 ex_calls 18) = false.
Proof. split; reflexivity. Qed.
Example ex_levelled : map Qred (levelled 3 (seen ex_p 0 ex_calls 18)) =
  [3 # 2; 3 # 2; 1 # 3; 1 # 3; 1 # 3; 1 # 3; 1 # 3; 1 # 3; 0]%Q.
Proof. reflexivity. Qed.
Definition reduced (o : option (option Q * tm)) : option (option Q) :=
  match o with Some (Some q, _) => Some (Some (Qred q)) | Some (None, _) => Some None | None => None end.
Definition ask (p : params) (cs : list call) (ts : nat) : option (option Q) :=
  match run p (init 0) cs with Some s => reduced (get_throughput p ts s) | None => None end.
(** none at the start, none in the revival, the average of the levelled numbers after it *)
Example ex_answers : ask ex_p [Add 1] 5 = Some None /\ ask ex_p [Add 1; Add 2; Add 3] 6 = Some (Some (9 # 32)) /\
  ask ex_p ex_calls 16 = Some None /\ ask ex_p ex_calls 18 = Some (Some (177 # 2048)).
Proof. repeat split; vm_compute; reflexivity. Qed.
(** steady: 2 requests in every window of 2 *)
Example ex_steady : let cs := [Add 0; Add 1; Add 2; Add 3; Add 4; Add 5] in
  seen ex_p 0 cs 6 = repeat 2 (window_of 2 0 6) /\ ask ex_p cs 6 = Some (Some (7 # 8)).
Proof. split; vm_compute; reflexivity. Qed.
(** with a count of 1: never measured *)
Example ex_one : ask (Params 1 1) (ordering 0 [1; 1; 1; 1; 1; 1]) 6 = Some None.
Proof. vm_compute. reflexivity. Qed.

Print Assumptions C72_total.
Print Assumptions C72_measure.
Print Assumptions C72_levelled.
Print Assumptions C72_bounds.
Print Assumptions C72_steady.
Print Assumptions C72_idle.
Print Assumptions C72_back.
Print Assumptions C72_one_refuted.
Print Assumptions C72_more_refuted.
