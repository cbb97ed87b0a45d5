(** C90: when the accumulating monitor holds an instance to be degraded. *)
From Coq Require Import List Arith ZArith QArith Qabs Bool Lia Lqa.
From Verif Require Import Dict AccMon_Model AccMon_Spec AccMon_Proofs.
Import ListNotations.
Open Scope nat_scope.

Lemma snoc_split {A} (l a b : list A) x y : l ++ [x] = a ++ y :: b -> (b = [] /\ a = l /\ x = y) \/ exists b', b = b' ++ [x] /\ l = a ++ y :: b'.
Proof.
  destruct b as [|z b _] using rev_ind; intros H.
  - left. apply app_inj_tail in H as (A1 & A2). auto.
  - right. exists b. change (a ++ y :: b ++ [z]) with (a ++ (y :: b) ++ [z]) in H. rewrite app_assoc in H. apply app_inj_tail in H as (A1 & A2). subst. auto.
Qed.

(** An instance is held to be degraded only if, for longer than the timeout, it was behind another one by more than the threshold,
    at every look at it *)
Theorem C90_only : forall delta_k timeout window alpha t0 l os s i, (0 < window)%Z -> timely t0 os ->
  run delta_k window alpha (init t0 l) os = Some s -> degraded timeout s i = Some true ->
  exists os1 t os2, os = os1 ++ Upd t :: os2 /\ always_lags delta_k window alpha t0 l os1 t os2 i /\ (timeout < p_now (past_of t0 os) - t)%Z.
Proof.
  intros delta_k timeout window alpha t0 l os s i W T R D. unfold degraded in D. destruct (known s i); [|discriminate].
  destruct (get i (alerts s)) as [t|] eqn:G; [|discriminate]. injection D as D. apply Z.ltb_lt in D.
  destruct (run_rep delta_k window alpha W t0 l os s T R) as (_ & _ & N & _). rewrite N in D. clear N.
  enough (X : exists os1 os2, os = os1 ++ Upd t :: os2 /\ always_lags delta_k window alpha t0 l os1 t os2 i).
  { destruct X as (os1 & os2 & X1 & X2). exists os1, t, os2. auto. }
  clear D timeout. revert s t T R G. induction os as [|o os IH] using rev_ind; intros s t T R G; [injection R as <-; discriminate|].
  pose proof (run_rep delta_k window alpha W t0 l _ s T R) as R'. rewrite run_snoc in R.
  destruct (run delta_k window alpha (init t0 l) os) as [s1|] eqn:E; [|discriminate]. assert (T1 := timely_snoc os o t0 T).
  pose proof (run_rep delta_k window alpha W t0 l os s1 T1 E) as R1.
  pose proof (alert_step delta_k window alpha t0 l os s1 o s i R1 R' R) as ST.
  assert (KEEP : get i (alerts s1) = Some t -> o <> Reset ->
    (forall t', o = Upd t' -> In i (members l os) -> lags delta_k window alpha t0 l (os ++ [o]) i) ->
    exists os1 os2, os ++ [o] = os1 ++ Upd t :: os2 /\ always_lags delta_k window alpha t0 l os1 t os2 i).
  { intros G1 NR NB. destruct (IH s1 t T1 eq_refl G1) as (os1 & os2 & EQ & A1 & A2 & A3 & A4). exists os1, (os2 ++ [o]). split; [rewrite EQ, <- app_assoc; reflexivity|].
    split; [exact A1|]. split; [exact A2|]. split; [intros J; apply in_app_iff in J as [J|[J|[]]]; auto|].
    intros a t' b EB M. apply snoc_split in EB as [(-> & -> & ->)|(b' & -> & EB)]; [|apply (A4 a t' b' EB M)].
    rewrite EQ in NB. replace (os1 ++ Upd t :: os2 ++ [Upd t']) with ((os1 ++ Upd t :: os2) ++ [Upd t']) by (rewrite <- app_assoc; reflexivity). apply (NB t' eq_refl M). }
  destruct o as [j|j| |t1| |j]; try (rewrite ST in G; apply KEEP; [exact G|discriminate|intros t' X; discriminate]).
  - congruence.
  - destruct ST as (S1 & S2 & S3). destruct (in_dec Nat.eq_dec i (members l os)) as [M|M].
    + pose proof (behind_lags delta_k window alpha t0 l _ s i R') as BL. destruct (behind delta_k s i) eqn:B.
      * assert (L : lags delta_k window alpha t0 l (os ++ [Upd t1]) i) by (apply BL; reflexivity). specialize (S1 M L).
        destruct (get i (alerts s1)) as [t2|] eqn:G1.
        -- apply KEEP; [congruence|discriminate|]. intros t' _ _. exact L.
        -- assert (t = t1) by congruence. subst t1. exists os, []. split; [reflexivity|]. split; [exact M|]. split; [exact L|]. split; [intros []|].
           intros a t' b EB. destruct a; discriminate.
      * rewrite S2 in G; [discriminate|exact M|]. intros L. apply BL in L. discriminate.
    + rewrite (S3 M) in G. apply KEEP; [exact G|discriminate|]. intros t' _ M'. contradiction.
Qed.
(** and if it was, it is *)
Theorem C90_then : forall delta_k timeout window alpha t0 l os1 t os2 s i, (0 < window)%Z -> timely t0 (os1 ++ Upd t :: os2) ->
  run delta_k window alpha (init t0 l) (os1 ++ Upd t :: os2) = Some s ->
  always_lags delta_k window alpha t0 l os1 t os2 i -> (timeout < p_now (past_of t0 (os1 ++ Upd t :: os2)) - t)%Z ->
  degraded timeout s i = Some true.
Proof.
  intros delta_k timeout window alpha t0 l os1 t os2 s i W T R A L.
  destruct (run_rep delta_k window alpha W t0 l _ s T R) as (_ & _ & N & _). rewrite <- N in L. clear N.
  enough (X : known s i = true /\ exists t2, get i (alerts s) = Some t2 /\ (t2 <= t)%Z).
  { destruct X as (K & t2 & G & LE). unfold degraded. rewrite K, G. f_equal. apply Z.ltb_lt. lia. }
  clear L timeout. revert s T R A. induction os2 as [|o os2 IH] using rev_ind; intros s T R (A1 & A2 & A3 & A4).
  - pose proof (run_rep delta_k window alpha W t0 l _ s T R) as R'. rewrite run_snoc in R.
    destruct (run delta_k window alpha (init t0 l) os1) as [s1|] eqn:E; [|discriminate]. assert (T1 := timely_snoc os1 _ t0 T).
    pose proof (run_rep delta_k window alpha W t0 l os1 s1 T1 E) as R1.
    destruct (alert_step delta_k window alpha t0 l os1 s1 (Upd t) s i R1 R' R) as (S1 & _). specialize (S1 A1 A2). split.
    + cbn [step] in R. unfold update_time in R. destruct (check _ _ _ _) as [al|] eqn:C; [|discriminate]. injection R as R. rewrite <- R. destruct R1 as (I & _).
      unfold known. cbn [keys]. cbn [insts alerts] in C. rewrite <- I in A1. clear - C A1.
      assert (G : forall (x : mon) ls al0 al1, check delta_k x ls al0 = Some al1 -> In i ls -> known x i = true).
      { intros x. induction ls as [|j ls IH]; intros al0 al1 H J; [destruct J|]. cbn [check] in H. destruct (known x j) eqn:K; [|discriminate].
        destruct J as [->|J]; [exact K|]. destruct (get j al0), (behind delta_k x j); apply (IH _ _ H J). }
      exact (G _ _ _ _ C A1).
    + rewrite S1. eexists. split; [reflexivity|]. destruct (get i (alerts s1)) as [t2|] eqn:G; [|lia].
      pose proof (timely_last t0 os1 t T) as LAST.
      enough (t2 <= p_now (past_of t0 os1))%Z by lia. clear - W T1 E G.
      revert s1 t2 T1 E G. induction os1 as [|o os IH] using rev_ind; intros s t T R G; [injection R as <-; discriminate|].
      pose proof (run_rep delta_k window alpha W t0 l _ s T R) as R'. rewrite run_snoc in R.
      destruct (run delta_k window alpha (init t0 l) os) as [s1|] eqn:E; [|discriminate]. assert (T1 := timely_snoc os o t0 T).
      pose proof (run_rep delta_k window alpha W t0 l os s1 T1 E) as R1. specialize (IH s1).
      pose proof (alert_step delta_k window alpha t0 l os s1 o s i R1 R' R) as ST. rewrite past_snoc. cbn zeta.
      destruct o as [j|j| |t1| |j]; try (rewrite ST in G; specialize (IH t T1 eq_refl G); cbn [p_now]; exact IH); [congruence|].
      assert (LE := timely_last t0 os t1 T). cbn [p_now]. destruct ST as (S1 & S2 & S3). destruct (in_dec Nat.eq_dec i (members l os)) as [M|M].
      * pose proof (behind_lags delta_k window alpha t0 l _ s i R') as BL. destruct (behind delta_k s i) eqn:B.
        -- rewrite S1 in G; [|exact M|apply BL; reflexivity]. injection G as G. destruct (get i (alerts s1)) as [t2|]; [|lia]. subst t2. specialize (IH t T1 eq_refl eq_refl). lia.
        -- rewrite S2 in G; [discriminate|exact M|]. intros X. apply BL in X. discriminate.
      * rewrite (S3 M) in G. specialize (IH t T1 eq_refl G). lia.
  - replace (os1 ++ Upd t :: os2 ++ [o]) with ((os1 ++ Upd t :: os2) ++ [o]) in T, R by (rewrite <- app_assoc; reflexivity).
    pose proof (run_rep delta_k window alpha W t0 l _ s T R) as R'. rewrite run_snoc in R.
    destruct (run delta_k window alpha (init t0 l) (os1 ++ Upd t :: os2)) as [s1|] eqn:E; [|discriminate]. assert (T1 := timely_snoc _ o t0 T).
    pose proof (run_rep delta_k window alpha W t0 l _ s1 T1 E) as R1.
    destruct (IH s1 T1 eq_refl) as (K & t2 & G & LE).
    { split; [exact A1|]. split; [exact A2|]. split; [intros J; apply A3; apply in_app_iff; left; exact J|].
      intros a t' b EB M. apply (A4 a t' (b ++ [o])); [rewrite EB, <- app_assoc; reflexivity|exact M]. }
    pose proof (alert_step delta_k window alpha t0 l _ s1 o s i R1 R' R) as ST.
    assert (KK : known s i = true).
    { clear - R K A3. destruct o as [j|j| |t1| |j]; cbn [step] in R; try (injection R as <-; exact K).
      - destruct (existsb _ _); [|discriminate]. injection R as <-. exact K.
      - destruct A3. apply in_app_iff. right. left. reflexivity.
      - unfold update_time in R. destruct (check _ _ _ _); [|discriminate]. injection R as <-. exact K. }
    split; [exact KK|]. exists t2. split; [|exact LE].
    destruct o as [j|j| |t1| |j]; try (rewrite ST; exact G).
    + destruct A3. apply in_app_iff. right. left. reflexivity.
    + destruct ST as (S1 & _ & S3). destruct (in_dec Nat.eq_dec i (members l (os1 ++ Upd t :: os2))) as [M|M]; [|rewrite (S3 M); exact G].
      rewrite S1; [rewrite G; reflexivity|exact M|]. rewrite <- app_assoc. cbn [app]. apply (A4 os2 t1 [] eq_refl M).
Qed.
(** a slow master: two requests a tick are ordered by the backups only *)
Definition slow : list op := [Upd 1%Z; Recv; Ord 1; Upd 2%Z; Recv; Ord 1; Ord 2; Upd 3%Z; Ord 2; Ord 1].
Example C90_example :
  let r := run 1 10 (1#10) (init 0 [0; 1; 2]) in
  option_map (fun s => degraded 5 s 0) (r (slow ++ [Upd 7%Z])) = Some (Some false) /\
  option_map (fun s => degraded 5 s 0) (r (slow ++ [Upd 8%Z])) = Some (Some true) /\
  option_map (fun s => degraded 5 s 1) (r (slow ++ [Upd 8%Z])) = Some (Some false) /\
  option_map (fun s => degraded 5 s 0) (r (slow ++ [Ord 0; Ord 0; Ord 0; Upd 8%Z])) = Some (Some false) /\
  timely 0 (slow ++ [Upd 8%Z]) /\ input_rate 10 (1#10) 0 (slow ++ [Upd 21%Z]) == (36#2000)%Q.
Proof. cbn zeta. repeat split; try (vm_compute; reflexivity); cbn; lia. Qed.

(** *** the rate *)
(** lies between zero and that of the busiest window *)
Theorem C90_rate : forall window alpha t0 os m, (0 < window)%Z -> (0 <= alpha <= 1)%Q ->
  (forall k, received_in window (past_of t0 os) k <= m) ->
  (0 <= input_rate window alpha t0 os <= inject_Z (Z.of_nat m) / inject_Z window)%Q.
Proof.
  intros window alpha t0 os m W (A0 & A1) M. unfold input_rate. set (p := past_of t0 os) in *.
  assert (WQ : (0 < inject_Z window)%Q) by (change 0%Q with (inject_Z 0); rewrite <- Zlt_Qlt; exact W).
  assert (I : (0 < / inject_Z window)%Q) by (apply Qinv_lt_0_compat, WQ).
  set (c := (inject_Z (Z.of_nat m) / inject_Z window)%Q).
  assert (C : forall k, (0 <= inject_Z (Z.of_nat (received_in window p k)) / inject_Z window <= c)%Q).
  { intros k. unfold c, Qdiv. split; [apply Qmult_le_0_compat; [change 0%Q with (inject_Z 0); rewrite <- Zle_Qle; lia|apply Qlt_le_weak, I]|].
    apply Qmult_le_compat_r; [rewrite <- Zle_Qle; specialize (M k); lia|apply Qlt_le_weak, I]. }
  assert (C0 : (0 <= c)%Q) by (destruct (C 0); lra).
  induction (window_of window (p_since p) (p_now p)) as [|n IH]; cbn [ema]; [split; [lra|exact C0]|]. specialize (C n).
  set (x := (inject_Z (Z.of_nat (received_in window p n)) / inject_Z window)%Q) in *. set (v := ema window alpha p n) in *. clearbody x v c.
  split; nra.
Qed.
(** without requests it fades *)
Theorem C90_fades : forall window alpha p n k, (forall j, n <= j -> received_in window p j = 0) ->
  (ema window alpha p (k + n) == ema window alpha p n * power (1 - alpha) k)%Q.
Proof.
  intros window alpha p n k H. induction k as [|k IH]; [cbn; ring|]. cbn [Nat.add ema]. rewrite (H (k + n)) by lia. rewrite IH.
  assert (Z0 : (inject_Z (Z.of_nat 0) / inject_Z window == 0)%Q) by (cbn; unfold Qdiv; ring). rewrite Z0.
  cbn [power]. ring.
Qed.

(** *** errors *)
(** removing an instance that is not there fails; so does the first look after an instance was added since the last reset that
    was not there then.  Nothing else does *)
Theorem C90_fails_only : forall delta_k window alpha t0 l os s o, (0 < window)%Z -> timely t0 os ->
  run delta_k window alpha (init t0 l) os = Some s -> run delta_k window alpha (init t0 l) (os ++ [o]) = None ->
  (exists i, o = RemI i /\ ~ In i (members l os)) \/
  (exists t i os1 os2, o = Upd t /\ os = os1 ++ Reset :: os2 /\ ~ In i (members l os1) /\ In i (members l os) /\ In (AddI i) os2).
Proof.
  intros delta_k window alpha t0 l os s o W T R F. rewrite run_snoc, R in F. pose proof (run_rep delta_k window alpha W t0 l os s T R) as RP.
  destruct RP as (I & _). destruct o as [i|i| |t| |i]; cbn [step] in F; try discriminate.
  - destruct (existsb (Nat.eqb i) (insts s)) eqn:E; [discriminate|]. left. exists i. split; [reflexivity|]. rewrite <- I. intros J. apply existsb_in in J. congruence.
  - right. unfold update_time in F. destruct (check _ _ _ _) eqn:C; [discriminate|]. cbn [insts alerts] in C.
    assert (G : forall (x : mon) ls al0, check delta_k x ls al0 = None -> exists i, In i ls /\ known x i = false).
    { intros x. induction ls as [|j ls IH]; intros al0 H; [discriminate|]. cbn [check] in H. destruct (known x j) eqn:K; [|exists j; split; [left; reflexivity|exact K]].
      destruct (get j al0), (behind delta_k x j); destruct (IH _ H) as (i & J & Y); exists i; split; try (right; exact J); exact Y. }
    destruct (G _ _ _ C) as (i & J & K). clear G C F. unfold known in K. cbn [keys] in K. destruct (keys s) as [ks|] eqn:KS; [|discriminate].
    assert (H : forall os s ks, run delta_k window alpha (init t0 l) os = Some s -> timely t0 os -> keys s = Some ks -> exists os1 os2, os = os1 ++ Reset :: os2 /\ ks = members l os1).
    { clear - W. induction os as [|o os IH] using rev_ind; intros s ks R T K; [injection R as <-; discriminate|]. rewrite run_snoc in R.
      destruct (run delta_k window alpha (init t0 l) os) as [s1|] eqn:E; [|discriminate]. assert (T1 := timely_snoc os o t0 T).
      assert (KEEP : keys s1 = keys s -> exists os1 os2, os ++ [o] = os1 ++ Reset :: os2 /\ ks = members l os1).
      { intros Q. rewrite <- Q in K. destruct (IH s1 ks eq_refl T1 K) as (os1 & os2 & X & Y). exists os1, (os2 ++ [o]). split; [rewrite X, <- app_assoc; reflexivity|exact Y]. }
      destruct o as [j|j| |t1| |j]; cbn [step] in R; try (injection R as <-; apply KEEP; reflexivity).
      - destruct (existsb _ _); [|discriminate]. injection R as <-. apply KEEP. reflexivity.
      - injection R as <-. cbn [keys] in K. injection K as <-. exists os, []. split; [reflexivity|]. apply (run_rep delta_k window alpha W t0 l os s1 T1 E).
      - unfold update_time in R. destruct (check _ _ _ _); [|discriminate]. injection R as <-. apply KEEP. reflexivity. }
    destruct (H os s ks R T KS) as (os1 & os2 & EQ & ->). exists t, i, os1, os2. split; [reflexivity|]. split; [exact EQ|].
    assert (NI : ~ In i (members l os1)) by (intros Q; apply existsb_in in Q; congruence). rewrite I in J.
    split; [exact NI|]. split; [exact J|]. rewrite EQ in J. unfold members in J, NI. rewrite fold_left_app in J. cbn [fold_left] in J.
    revert NI J. generalize (fold_left (fun l o => match o with AddI i => if in_dec Nat.eq_dec i l then l else l ++ [i] | RemI i => remove Nat.eq_dec i l | _ => l end) os1 l).
    clear. induction os2 as [|o os2 IH]; intros m NI J; [contradiction|]. cbn [fold_left] in J.
    destruct o as [j|j| |t| |j]; try (right; exact (IH _ NI J)).
    + destruct (Nat.eq_dec j i) as [->|N]; [left; reflexivity|]. right. refine (IH _ _ J). destruct (in_dec Nat.eq_dec j m); [exact NI|].
      intros Q. apply in_app_iff in Q as [Q|[Q|[]]]; [contradiction|congruence].
    + right. refine (IH _ _ J). intros Q. apply in_remove in Q. tauto.
Qed.
(** Refuted: instances can be added at any time.  After a reset, which every view change makes, a new instance makes every look fail
    until the next one *)
Theorem C90_new_refuted : forall delta_k window alpha t0 l os s i t, run delta_k window alpha (init t0 l) os = Some s -> ~ In i (insts s) ->
  run delta_k window alpha (init t0 l) (os ++ [Reset; AddI i; Upd t]) = None.
Proof.
  intros delta_k window alpha t0 l os s i t R NI. replace (os ++ [Reset; AddI i; Upd t]) with (((os ++ [Reset]) ++ [AddI i]) ++ [Upd t]) by (rewrite <- !app_assoc; reflexivity).
  rewrite !run_snoc, R. cbn [step]. unfold update_time. cbn [insts alerts keys]. unfold add. destruct (existsb (Nat.eqb i) (insts s)) eqn:E; [apply existsb_in in E; contradiction|].
  destruct (check _ _ _ _) as [al|] eqn:C; [|reflexivity]. exfalso.
  assert (G : forall (x : mon) ls al0 al1, check delta_k x ls al0 = Some al1 -> In i ls -> known x i = true).
  { intros x. induction ls as [|j ls IH]; intros al0 al1 H J; [destruct J|]. cbn [check] in H. destruct (known x j) eqn:K; [|discriminate].
    destruct J as [->|J]; [exact K|]. destruct (get j al0), (behind delta_k x j); apply (IH _ _ H J). }
  specialize (G _ _ _ _ C). unfold known in G. cbn [keys] in G. rewrite E in G. discriminate G. apply in_app_iff. right. left. reflexivity.
Qed.
Example C90_new_example : option_map insts (run 1 10 (1#10) (init 0 [0; 1]) slow) = Some [0; 1].
Proof. vm_compute. reflexivity. Qed.
(** Refuted: an instance is compared by what it has done since it is there.  One that is added later and orders everything from
    then on is held to be degraded *)
Theorem C90_late_refuted : exists os1 os2, let os := os1 ++ AddI 2 :: os2 in
  timely 0 os /\ (forall a b, os2 = a ++ Ord 1 :: b -> exists b', b = Ord 2 :: b') /\
  option_map (fun s => degraded 5 s 2) (run 1 10 (1#10) (init 0 [0; 1]) os) = Some (Some true).
Proof.
  exists [Upd 1%Z; Ord 0; Ord 1], [Upd 2%Z; Ord 0; Ord 1; Ord 2; Upd 3%Z; Ord 0; Ord 1; Ord 2; Upd 8%Z]. cbn zeta. split; [cbn; lia|]. split; [|vm_compute; reflexivity].
  intros a b E. repeat (destruct a as [|? a]; cbn [app] in E; [try discriminate E; injection E as <-; eexists; reflexivity|injection E as _ E]). destruct a; discriminate E.
Qed.
(** Refuted: an instance that is taken away and put back begins anew.  It is held to be degraded for a time when it was not there *)
Theorem C90_back_refuted : let os := [Upd 1%Z; Ord 1; Upd 2%Z; RemI 2; Upd 50%Z; AddI 2; Upd 51%Z] in
  timely 0 os /\ option_map (fun s => degraded 40 s 2) (run 1 10 (1#10) (init 0 [0; 1; 2]) os) = Some (Some true).
Proof. cbn zeta. split; [cbn; lia|vm_compute; reflexivity]. Qed.

Print Assumptions C90_only.
Print Assumptions C90_then.
Print Assumptions C90_rate.
Print Assumptions C90_fades.
Print Assumptions C90_fails_only.
Print Assumptions C90_new_refuted.
Print Assumptions C90_late_refuted.
Print Assumptions C90_back_refuted.
