(** C73: the monitor of the instances of a node.  Theorems about Monitor_Model.v; the specification
    is Monitor_Spec.v. *)
From Coq Require Import List Arith Bool ZArith QArith Lia Lqa Sorted.
From Verif Require Import Base Dict Tput_Model Tput_Spec Tput_Proofs Tput_Props Monitor_Model Monitor_Spec Monitor_Proofs.
Import ListNotations.
Open Scope nat_scope.

(** The monitor after the history [h], newest event first *)
Definition after (c : config) (h : list event) (m : mon) : Prop := run c empty (rev h) = Some m.
Definition sane (c : config) : Prop := 0 < window (tput c) /\ 2 <= min_cnt (tput c).

(** No call raises *)
Theorem C73_total : forall c h t, sane c -> well_formed h t -> exists m, after c h m /\
  check_unordered c t m <> None /\ check_performance c t m <> None /\ master_degraded c t m <> None /\ backups_degraded c t m <> None.
Proof.
  intros c h t Hg Hwf. destruct (run_inv c Hg h t Hwf) as (m & E & H & Hn & El). exists m. split; [exact E|].
  split; [|split; [|split]].
  - unfold check_unordered. destruct (tinv_check c h t t (m_track m) (i_track _ _ _ _ H) (le_n t)) as (l & -> & _). discriminate.
  - destruct (perf_spec c h t t m Hg H Hn (le_n t) El) as (r & m' & -> & _). discriminate.
  - destruct (master_spec c h t t m Hg H Hn (le_n t)) as (b & m' & -> & _). discriminate.
  - unfold backups_degraded. rewrite (i_ids _ _ _ _ H).
    destruct (slow_among_spec c h t Hg (ids h) t m H Hn (le_n t) (incl_refl _)) as (r & m' & -> & _). discriminate.
Qed.

(** A request is tracked iff it waits for some instance, and unordered iff it waits for the master *)
Theorem C73_tracked : forall c h t m k, sane c -> well_formed h t -> after c h m ->
  ((exists r, get k (t_reqs (m_track m)) = Some r) <-> exists tk i, waits h k tk i) /\
  (In k (t_unordered (m_track m)) <-> exists tk, waits h k tk 0).
Proof.
  intros c h t m k Hg Hwf E. destruct (run_inv c Hg h t Hwf) as (m' & E' & H & _). unfold after in E. rewrite E in E'. injection E' as <-.
  pose proof (i_track _ _ _ _ H) as T. split; split.
  - intros (r & Er). destruct (v_req _ _ _ _ T k r Er) as (l & A1 & _). destruct (waiting_facts _ _ _ _ A1) as (Hne & _).
    destruct l as [|i l]; [congruence|]. exists (r_time r), i. apply waiting_waits. eexists. split; [exact A1|left; reflexivity].
  - intros (tk & i & Hw). apply waiting_waits in Hw. destruct Hw as (l & Ew & _). destruct (get k (t_reqs (m_track m))) as [r|] eqn:Er; [eauto|].
    rewrite (v_none _ _ _ _ T k Er) in Ew. discriminate.
  - intros Hk. apply (v_unord _ _ _ _ T) in Hk. destruct Hk as (tk & l & Ew & Hl). exists tk. apply waiting_waits. eauto.
  - intros (tk & Hw). apply waiting_waits in Hw. destruct Hw as (l & Ew & Hl). apply (v_unord _ _ _ _ T). eauto.
Qed.

(** A check reports the requests that wait for the master for more than check_freq, each once: not
    when a check since the reception was late enough to report it *)
Theorem C73_reported : forall c h t m, sane c -> well_formed h t -> after c h m ->
  exists m' l, check_unordered c t m = Some (m', l) /\
    forall k, In k l <-> exists tk later older, h = later ++ EReceived k tk :: older /\ In 0 (ids older) /\
      (forall e, In e later -> ~ ends k 0 e) /\ check_freq c < t - tk /\
      (forall s, In (ECheck s) later -> s - tk <= check_freq c).
Proof.
  intros c h t m Hg Hwf E. destruct (run_inv c Hg h t Hwf) as (m' & E' & H & _). unfold after in E. rewrite E in E'. injection E' as <-.
  unfold check_unordered. destruct (tinv_check c h t t (m_track m) (i_track _ _ _ _ H) (le_n t)) as (l & -> & Hl & _).
  eexists. eexists. split; [reflexivity|]. intros k. rewrite Hl. unfold due. split.
  - intros (tk & l0 & Ew & H0 & Ht & Hr). assert (Hw : waits h k tk 0) by (apply waiting_waits; eauto).
    destruct Hw as (later & older & -> & Hi & Hn). exists tk, later, older. split; [reflexivity|]. split; [exact Hi|]. split; [exact Hn|]. split; [exact Ht|].
    exact (proj1 (reported_since c k tk older Hi later Hn) Hr).
  - intros (tk & later & older & Eh & Hi & Hn & Ht & Hr). assert (Hw : waits h k tk 0) by (exists later, older; auto).
    apply waiting_waits in Hw. destruct Hw as (l0 & Ew & H0). exists tk, l0. split; [exact Ew|]. split; [exact H0|]. split; [exact Ht|].
    rewrite Eh. exact (proj2 (reported_since c k tk older Hi later Hn) Hr).
Qed.

(** The master is found degraded iff its throughput is low or its latency is high *)
Theorem C73_master : forall c h t m, sane c -> well_formed h t -> after c h m ->
  exists b m', master_degraded c t m = Some (b, m') /\ (b = true <-> slow c h 0 (speed c h t) \/ late c h (delay c h)).
Proof.
  intros c h t m Hg Hwf E. destruct (run_inv c Hg h t Hwf) as (m' & E' & H & Hn & _). unfold after in E. rewrite E in E'. injection E' as <-.
  destruct (master_spec c h t t m Hg H Hn (le_n t)) as (b & m2 & E2 & _ & _ & Hb). exists b, m2. auto.
Qed.

(** The backups found degraded are those with a low throughput *)
Theorem C73_backups : forall c h t m, sane c -> well_formed h t -> after c h m ->
  exists l m', backups_degraded c t m = Some (l, m') /\ forall i, In i l <-> In i (ids h) /\ i <> 0 /\ slow c h i (speed c h t).
Proof.
  intros c h t m Hg Hwf E. destruct (run_inv c Hg h t Hwf) as (m' & E' & H & Hn & _). unfold after in E. rewrite E in E'. injection E' as <-.
  unfold backups_degraded. rewrite (i_ids _ _ _ _ H).
  destruct (slow_among_spec c h t Hg (ids h) t m H Hn (le_n t) (incl_refl _)) as (r & m2 & -> & _ & _ & Hr). exists r, m2. auto.
Qed.

(** A check of performance looks at the instances unless the number of ordered requests is that of
    the last check *)
Theorem C73_performance : forall c h t m, sane c -> well_formed h t -> after c h m ->
  exists r m', check_performance c t m = Some (r, m') /\
    match r with
    | None => last_total h = Some (total h)
    | Some (l, b) => last_total h <> Some (total h) /\
        (forall i, In i l <-> In i (ids h) /\ i <> 0 /\ slow c h i (speed c h t)) /\
        (b = true <-> slow c h 0 (speed c h t) \/ late c h (delay c h))
    end.
Proof.
  intros c h t m Hg Hwf E. destruct (run_inv c Hg h t Hwf) as (m' & E' & H & Hn & El). unfold after in E. rewrite E in E'. injection E' as <-.
  destruct (perf_spec c h t t m Hg H Hn (le_n t) El) as (r & m2 & E2 & _ & _ & _ & Hr). exists r, m2. auto.
Qed.

(** ** What follows *)
Lemma counts_nil w t0 n : counts w t0 [] n = repeat 0 n.
Proof.
  unfold counts, count_in. cbn [filter length]. generalize 0 at 2 as s. induction n as [|n IH]; intros s; cbn [seq map repeat]; [reflexivity|].
  f_equal. apply IH.
Qed.
Lemma speed_idle c h t i : sane c -> base h + window (tput c) * min_cnt (tput c) <= t -> times h i = [] ->
  exists q, speed c h t i = Some q /\ (q == 0)%Q.
Proof.
  intros (Hw & Hn) Ht Hi. pose proof (window_of (window (tput c)) (base h) t) as _.
  assert (Ho : in_order (base h) [] t).
  { unfold in_order. cbn. constructor; [constructor; constructor|]. constructor; [lia|constructor]. }
  assert (Hge : min_cnt (tput c) <= window_of (window (tput c)) (base h) t).
  { unfold window_of. apply Nat.div_le_lower_bound; [lia|]. lia. }
  destruct (C72_measure (tput c) (base h) [] t Hw Hn Ho) as (v & Ha & Hv).
  destruct (C72_idle (tput c) (base h) [] t [] (window_of (window (tput c)) (base h) t) Hw Hn Ho Ht) as (q & Hq & Eq); [lia|apply counts_nil|].
  unfold speed. rewrite Hi. unfold seen in Hv. cbn [adds flat_map] in Hv.
  assert (v = Some q).
  { destruct Ha as (s1 & s2 & A1 & A2). destruct Hq as (s3 & s4 & A3 & A4). cbn in A1, A3. injection A1 as <-. injection A3 as <-. congruence. }
  subst v. destruct (_ || _); [discriminate|]. destruct Hv as (q' & E' & Hq'). injection E' as <-.
  eexists. split; [reflexivity|]. rewrite <- Hq', Eq. cbn. unfold Qeq. cbn. reflexivity.
Qed.

(** A master that ordered nothing since the measures were started is found, when the first windows
    are over, the others ordered more requests than there are instances and their median is positive *)
Theorem C73_stalled : forall c h t m q, sane c -> well_formed h t -> after c h m -> (0 < delta c)%Q ->
  base h + window (tput c) * min_cnt (tput c) <= t -> times h 0 = [] ->
  length (ids h) < fold_right Nat.add 0 (map (number h) (filter (fun j => negb (j =? 0)) (ids h))) ->
  others h 0 (speed c h t) <> [] -> low_median (others h 0 (speed c h t)) q -> (0 < q)%Q ->
  exists m', master_degraded c t m = Some (true, m').
Proof.
  intros c h t m q Hg Hwf E Hd Ht Hi Hlen Hne Hm Hq.
  destruct (C73_master c h t m Hg Hwf E) as (b & m' & Eb & Hb). exists m'. rewrite Eb.
  assert (b = true); [|congruence]. apply Hb. left.
  destruct (speed_idle c h t 0 Hg Ht Hi) as (v & Ev & Hv). exists v, q. split; [exact Ev|]. split.
  { intros (_ & _ & He). lia. }
  split; [exact Hne|]. split; [exact Hm|]. split; [exact Hq|]. rewrite Hv.
  rewrite <- (Qmult_0_l q). apply Qmult_lt_compat_r; assumption.
Qed.

Lemma speed_same c h t i j : times h i = times h j -> speed c h t i = speed c h t j.
Proof. intros E. unfold speed. rewrite E. reflexivity. Qed.
Lemma others_const h i v w : (forall j, In j (ids h) -> v j = w) -> forall x, In x (others h i v) -> w = Some x.
Proof.
  intros H x Hx. unfold others, present in Hx. apply in_flat_map in Hx. destruct Hx as (o & Ho & Hx).
  apply in_map_iff in Ho. destruct Ho as (j & <- & Hj). apply filter_In in Hj. rewrite (H j) in Hx by tauto.
  destruct w as [q|]; [destruct Hx as [->|[]]; reflexivity|destruct Hx].
Qed.

(** Instances that order the same requests at the same times: none is slow, and the master is late
    by no positive omega *)
Theorem C73_fair : forall c h t m, sane c -> well_formed h t -> after c h m -> (delta c <= 1)%Q -> (0 < omega c)%Q ->
  (forall i, In i (ids h) -> times h i = times h 0 /\ durations h i = durations h 0) ->
  (exists m', master_degraded c t m = Some (false, m')) /\ (exists m', backups_degraded c t m = Some ([], m')).
Proof.
  intros c h t m Hg Hwf E Hd Hom Hsame.
  assert (Hv : forall j, In j (ids h) -> speed c h t j = speed c h t 0) by (intros j Hj; apply speed_same; apply Hsame; exact Hj).
  assert (Hdl : forall j, In j (ids h) -> nonzero (delay c h) j = nonzero (delay c h) 0).
  { intros j Hj. unfold nonzero, delay. rewrite (proj2 (Hsame j Hj)). reflexivity. }
  assert (Hnoslow : forall i, In i (ids h) -> ~ slow c h i (speed c h t)).
  { intros i Hi (q & x & Eq & _ & _ & Hx & Hpos & Hlt).
    assert (Hxq : (x == q)%Q).
    { assert (Hall : forall j y, at_place j (others h i (speed c h t)) y -> (y == q)%Q).
      { intros j y Hy. destruct (place_in _ _ _ Hy) as (z & Hz & <-). apply (others_const h i (speed c h t) (speed c h t 0) Hv) in Hz.
        rewrite (Hv i Hi), Hz in Eq. injection Eq as ->. reflexivity. }
      destruct (i =? 0); [exact (Hall _ _ Hx)|]. destruct Hx as (a & b & Ha & Hb & ->).
      rewrite (Hall _ _ Ha), (Hall _ _ Hb). field. }
    rewrite Hxq in Hpos, Hlt. apply (Qlt_not_le _ _ Hlt). rewrite <- (Qmult_1_l q) at 2.
    apply Qmult_le_compat_r; [exact Hd|apply Qlt_le_weak; exact Hpos]. }
  destruct (run_inv c Hg h t Hwf) as (m0 & E0 & H & _). unfold after in E. rewrite E in E0. injection E0 as <-.
  pose proof (v_zero _ _ _ _ (i_track _ _ _ _ H)) as H0. split.
  - destruct (C73_master c h t m Hg Hwf E) as (b & m' & Eb & Hb). exists m'. rewrite Eb. destruct b; [|reflexivity]. exfalso.
    destruct (proj1 Hb eq_refl) as [Hs|Hl]; [exact (Hnoslow 0 H0 Hs)|].
    destruct Hl as (q & x & Eq & Hz & _ & Hx & Hle). destruct (place_in _ _ _ Hx) as (y & Hy & Exy).
    apply (others_const h 0 (nonzero (delay c h)) (nonzero (delay c h) 0) Hdl) in Hy. unfold nonzero in Hy. rewrite Eq in Hy.
    destruct (Qeq_bool q 0); [discriminate|]. injection Hy as ->. rewrite <- Exy in Hle. lra.
  - destruct (C73_backups c h t m Hg Hwf E) as (l & m' & El & Hl). exists m'. rewrite El. destruct l as [|i l]; [reflexivity|]. exfalso.
    destruct (proj1 (Hl i) (or_introl eq_refl)) as (Hi & _ & Hs). exact (Hnoslow i Hi Hs).
Qed.

(** ** What does not hold *)
(** A request that a backup orders again and again counts each time while it waits for some other
    instance: a master that ordered every request before any other instance is found degraded *)
Definition cfg : config := Config (Params 1 2) 2 (1 # 10) 20 5.
Definition inflated : list event :=
  rev ([EAdd 0 0; EAdd 1 0; EAdd 2 0; EReceived 1 0; EReceived 2 0; EOrdered 0 [1; 2] 0 [1; 2]] ++
       flat_map (fun t => [EOrdered 1 [1] t [1; 2]; EOrdered 2 [2] t [1; 2]]) [0; 1; 2; 3; 4]).
Lemma sorted_ge_b (l : list nat) : (fix f (l : list nat) := match l with [] => true | a :: l => forallb (fun b => b <=? a) l && f l end) l = true -> StronglySorted ge l.
Proof.
  induction l as [|a l IH]; intros H; [constructor|]. apply andb_prop in H. destruct H as (H1 & H2). constructor; [exact (IH H2)|].
  apply Forall_forall. intros x Hx. rewrite forallb_forall in H1. specialize (H1 x Hx). apply Nat.leb_le in H1. lia.
Qed.
Lemma inflated_wf : well_formed inflated 5.
Proof.
  split; [exists 0; eexists (removelast inflated); vm_compute; reflexivity|]. split.
  - vm_compute. intuition discriminate.
  - apply sorted_ge_b. vm_compute. reflexivity.
Qed.
Definition by_master (older : list event) (e : event) : bool :=
  match e with
  | EOrdered i ks s _ =>
      (i =? 0) || forallb (fun k => existsb (fun e0 => match e0 with EOrdered 0 ks0 s0 _ => existsb (Nat.eqb k) ks0 && (s0 <=? s) | _ => false end) older) ks
  | _ => true
  end.
Fixpoint first_of_master (h : list event) : bool := match h with [] => true | e :: h => by_master h e && first_of_master h end.
Theorem C73_inflate_refuted : exists c h t m m', sane c /\ well_formed h t /\ after c h m /\ master_degraded c t m = Some (true, m') /\
  forall i ks s kn later older k, h = later ++ EOrdered i ks s kn :: older -> i <> 0 -> In k ks ->
    exists ks0 s0 kn0, In (EOrdered 0 ks0 s0 kn0) older /\ In k ks0 /\ s0 <= s.
Proof.
  exists cfg, inflated, 5. eexists. eexists. split; [split; cbn; lia|]. split; [exact inflated_wf|]. split; [vm_compute; reflexivity|].
  split; [vm_compute; reflexivity|].
  intros i ks s kn later older k E Hi Hk.
  assert (Hc : forall h later older, h = later ++ EOrdered i ks s kn :: older -> first_of_master h = true -> by_master older (EOrdered i ks s kn) = true).
  { clear. induction h as [|e h IH]; intros later older E H; [destruct later; discriminate|]. cbn [first_of_master] in H. apply andb_prop in H.
    destruct later as [|e0 later]; cbn [app] in E; injection E as -> E; [subst h; tauto|]. apply (IH later older E). tauto. }
  assert (Hf : first_of_master inflated = true) by (vm_compute; reflexivity).
  specialize (Hc inflated later older E Hf). clear E Hf. unfold by_master in Hc. apply orb_prop in Hc. destruct Hc as [Hc|Hc]; [apply Nat.eqb_eq in Hc; congruence|].
  rewrite forallb_forall in Hc. specialize (Hc k Hk). apply existsb_exists in Hc. destruct Hc as (e0 & He & Hc).
  destruct e0 as [| | | |[|j] ks0 s0 kn0| | |]; try discriminate. apply andb_prop in Hc. destruct Hc as (H1 & H2).
  exists ks0, s0, kn0. split; [exact He|]. split; [apply mem_in; exact H1|apply Nat.leb_le; exact H2].
Qed.
(** After a reset the number of ordered requests may come back to that of the last check; the check
    is skipped although the master is slow *)
Definition skipped : list event :=
  rev ([EAdd 0 0; EAdd 1 0; EReceived 1 0; EReceived 2 0; EReceived 3 0; EReceived 4 0; EOrdered 1 [1; 2; 3; 4] 0 [1; 2; 3; 4]; EPerf 0; EReset 0;
        EReceived 5 0; EReceived 6 0; EReceived 7 0; EReceived 8 0] ++
       [EOrdered 1 [5; 6] 0 [5; 6]; EOrdered 1 [7] 1 [7]; EOrdered 1 [8] 2 [8]]).
Theorem C73_skip_refuted : exists c h t m m', sane c /\ well_formed h t /\ after c h m /\
  check_performance c t m = Some (None, m') /\ exists m2, master_degraded c t m = Some (true, m2).
Proof.
  exists cfg, skipped, 3. eexists. eexists. split; [split; cbn; lia|]. split; [|split; [vm_compute; reflexivity|split; [vm_compute; reflexivity|]]].
  - split; [exists 0; eexists (removelast skipped); vm_compute; reflexivity|]. split.
    + vm_compute. intuition discriminate.
    + apply sorted_ge_b. vm_compute. reflexivity.
  - eexists. vm_compute. reflexivity.
Qed.

(** ** Examples *)
Definition busy : list event :=
  rev ([EAdd 0 0; EAdd 1 0; EAdd 2 0; EReceived 1 0; EReceived 2 0; EReceived 3 1; EReceived 4 1; EReceived 5 2] ++
       [EOrdered 1 [1; 2] 2 [1; 2]; EOrdered 2 [1] 2 [1]; EOrdered 2 [2; 3] 3 [2; 3]; EOrdered 1 [3; 4] 3 [3]; ECheck 3; ERemove 7;
        EOrdered 1 [5] 4 [5]; EOrdered 2 [4; 5] 4 [4; 5]; EDrop 5; ECheck 6]).
Lemma busy_wf : well_formed busy 7.
Proof.
  split; [exists 0; eexists (removelast busy); vm_compute; reflexivity|]. split.
  - vm_compute. intuition discriminate.
  - apply sorted_ge_b. vm_compute. reflexivity.
Qed.
Example ex_sane : sane cfg.
Proof. split; cbn; lia. Qed.
Definition busy_mon : mon := match run cfg empty (rev busy) with Some m => m | None => empty end.
Example ex_busy : after cfg busy busy_mon.
Proof. vm_compute. reflexivity. Qed.
(** requests 3 and 4, received at 1, are late at 7; 1 and 2 were reported at 6; 5 was dropped *)
Example ex_late : option_map snd (check_unordered cfg 7 busy_mon) = Some [3; 4].
Proof. vm_compute. reflexivity. Qed.
Example ex_unordered : t_unordered (m_track busy_mon) = [1; 2; 3; 4].
Proof. vm_compute. reflexivity. Qed.
Example ex_numbers : number busy 0 = 0 /\ number busy 1 = 5 /\ number busy 2 = 5 /\ times busy 2 = [2; 3; 3; 4; 4] /\ durations busy 1 = [2; 2; 2; 2].
Proof. vm_compute. auto. Qed.
(** the master, which ordered nothing, is found: C73_stalled applies *)
Example ex_stalled : option_map fst (master_degraded cfg 7 busy_mon) = Some true.
Proof. vm_compute. reflexivity. Qed.
Example ex_stalled_hyps : base busy + window (tput cfg) * min_cnt (tput cfg) <= 7 /\ times busy 0 = [] /\
  length (ids busy) < fold_right Nat.add 0 (map (number busy) (filter (fun j => negb (j =? 0)) (ids busy))) /\
  others busy 0 (speed cfg busy 7) <> [] /\ exists q, low_median (others busy 0 (speed cfg busy 7)) q /\ (0 < q)%Q.
Proof.
  split; [vm_compute; lia|]. split; [reflexivity|]. split; [vm_compute; lia|]. split; [vm_compute; discriminate|].
  exists (median_low (others busy 0 (speed cfg busy 7))). split; [|vm_compute; reflexivity].
  vm_compute. lia.
Qed.
(** a check of performance finds no slow backup and a slow master; it is repeated when more was ordered *)
Example ex_perf : option_map fst (check_performance cfg 7 busy_mon) = Some (Some ([], true)).
Proof. vm_compute. reflexivity. Qed.
(** all order the same: C73_fair applies *)
Definition even : list event :=
  rev ([EAdd 0 0; EAdd 1 0; EAdd 2 0; EReceived 1 0; EReceived 2 0; EReceived 3 0] ++
       flat_map (fun i => [EOrdered i [1; 2] 1 [1; 2]]) [0; 1; 2] ++ flat_map (fun i => [EOrdered i [3] 2 [3]]) [2; 1; 0]).
Example ex_even : forall i, In i (ids even) -> times even i = times even 0 /\ durations even i = durations even 0.
Proof. intros i. vm_compute. intros [<-|[<-|[<-|[]]]]; auto. Qed.
Example ex_even_wf : well_formed even 3.
Proof.
  split; [exists 0; eexists (removelast even); vm_compute; reflexivity|]. split.
  - vm_compute. intuition discriminate.
  - apply sorted_ge_b. vm_compute. reflexivity.
Qed.
Example ex_even_speed : exists q, speed cfg even 3 0 = Some q /\ (0 < q)%Q.
Proof. eexists. split; vm_compute; reflexivity. Qed.
(** a master that is fast and late *)
Definition tardy : list event :=
  rev ([EAdd 0 0; EAdd 1 0; EReceived 1 0; EReceived 2 0] ++
       [EOrdered 1 [1; 2] 1 [1; 2]; EOrdered 0 [1; 2] 40 [1; 2]]).
Example ex_tardy : late cfg tardy (delay cfg tardy) /\ ~ slow cfg tardy 0 (speed cfg tardy 41).
Proof.
  split.
  - exists (1800 # 81)%Q, (5 # 9)%Q. split; [vm_compute; reflexivity|]. split; [vm_compute; discriminate|]. split; [vm_compute; discriminate|].
    split; [vm_compute; lia|vm_compute; discriminate].
  - intros (q & m & E & _). vm_compute in E. discriminate.
Qed.

Print Assumptions C73_total.
Print Assumptions C73_tracked.
Print Assumptions C73_reported.
Print Assumptions C73_master.
Print Assumptions C73_backups.
Print Assumptions C73_performance.
Print Assumptions C73_stalled.
Print Assumptions C73_fair.
Print Assumptions C73_inflate_refuted.
Print Assumptions C73_skip_refuted.
