(** Proofs about the accumulating monitor. *)
From Coq Require Import List Arith ZArith QArith Bool Lia Lqa.
From Verif Require Import Dict AccMon_Model AccMon_Spec.
Import ListNotations.
Open Scope nat_scope.

Section Params.
Variables (delta_k timeout window : Z) (alpha : Q).
Hypothesis W : (0 < window)%Z.
Notation window_of := (window_of window).
Notation received_in := (received_in window).
Notation ema := (ema window alpha).
Notation run := (run delta_k window alpha).
Notation step := (step delta_k window alpha).
Notation roll := (roll window alpha).

Lemma window_ge since t k : (since + Z.of_nat (S k) * window < t)%Z <-> S k <= window_of since t.
Proof.
  unfold AccMon_Spec.window_of. split; intros H.
  - assert (Z.of_nat (S k) <= (t - since - 1) / window)%Z by (apply Z.div_le_lower_bound; lia). lia.
  - assert (Z.of_nat (S k) <= (t - since - 1) / window)%Z by lia.
    assert (window * ((t - since - 1) / window) <= t - since - 1)%Z by (apply Z.mul_div_le; lia). nia.
Qed.
Lemma window_mono since t t' : (t <= t')%Z -> window_of since t <= window_of since t'.
Proof. intros H. unfold AccMon_Spec.window_of. assert ((t - since - 1) / window <= (t' - since - 1) / window)%Z by (apply Z.div_le_mono; lia). lia. Qed.
Lemma window_start t : window_of t t = 0.
Proof. unfold AccMon_Spec.window_of. assert ((t - t - 1) / window < 0)%Z by (apply Z.div_lt_upper_bound; lia). lia. Qed.
Lemma received_none p k : (forall r, In r (p_received p) -> window_of (p_since p) r < k) -> received_in p k = 0.
Proof.
  unfold AccMon_Spec.received_in. intros H. induction (p_received p) as [|r l IH]; [reflexivity|]. cbn [filter].
  destruct (Nat.eqb_spec (window_of (p_since p) r) k) as [E|_]; [specialize (H r (or_introl eq_refl)); lia|]. apply IH. intros r' I. apply H. right. exact I.
Qed.
Definition tracks (p : past) (k : nat) (e : est) : Prop :=
  e_start e = (p_since p + Z.of_nat k * window)%Z /\ e_sum e = received_in p k /\ e_value e = ema p k.
Lemma roll_ok p ts fuel : forall e k, tracks p k e -> k <= window_of (p_since p) ts -> (forall r, In r (p_received p) -> window_of (p_since p) r <= k) ->
  Z.to_nat (ts - e_start e) <= fuel -> tracks p (window_of (p_since p) ts) (roll fuel e ts).
Proof.
  induction fuel as [|fuel IH]; intros e k (T1 & T2 & T3) K R F; cbn [AccMon_Model.roll].
  - assert (E : window_of (p_since p) ts = k).
    { destruct (Nat.le_gt_cases (S k) (window_of (p_since p) ts)) as [H|H]; [|lia]. apply window_ge in H. rewrite T1 in F. nia. }
    rewrite E. repeat split; assumption.
  - destruct (Z.ltb_spec (e_start e + window) ts) as [L|L].
    + assert (G : S k <= window_of (p_since p) ts) by (apply window_ge; rewrite T1 in L; nia).
      apply (IH _ (S k)); [|exact G|intros r I; specialize (R r I); lia|cbn [e_start]; lia]. repeat split; cbn [e_start e_sum e_value].
      * rewrite T1. nia.
      * symmetry. apply received_none. intros r I. specialize (R r I). lia.
      * rewrite T2, T3. reflexivity.
    + assert (E : window_of (p_since p) ts = k).
      { destruct (Nat.le_gt_cases (S k) (window_of (p_since p) ts)) as [H|H]; [|lia]. apply window_ge in H. rewrite T1 in L. nia. }
      rewrite E. repeat split; assumption.
Qed.
Lemma ema_ext p p' n : p_since p = p_since p' -> (forall k, k < n -> received_in p k = received_in p' k) -> ema p n = ema p' n.
Proof. intros S0. induction n as [|n IH]; intros H; [reflexivity|]. cbn [AccMon_Spec.ema]. rewrite (H n) by lia. rewrite IH by (intros; apply H; lia). reflexivity. Qed.

(** *** the state and the history *)
Variables (t0 : Z) (l0 : list nat).
Notation past_of := (past_of t0).
Definition rep (os : list op) (s : mon) : Prop :=
  insts s = members l0 os /\ (forall i, done s i = progress i os) /\ now s = p_now (past_of os) /\
  tracks (past_of os) (window_of (p_since (past_of os)) (p_now (past_of os))) (rate s) /\
  (forall r, In r (p_received (past_of os)) -> (r <= p_now (past_of os))%Z).
Lemma rep_init : rep [] (init t0 l0).
Proof.
  repeat split; try reflexivity; cbn.
  - rewrite window_start. lia.
  - rewrite window_start. reflexivity.
  - intros r [].
Qed.
Lemma members_snoc os o : members l0 (os ++ [o]) =
  match o with AddI i => if in_dec Nat.eq_dec i (members l0 os) then members l0 os else members l0 os ++ [i]
             | RemI i => remove Nat.eq_dec i (members l0 os) | _ => members l0 os end.
Proof. unfold members. rewrite fold_left_app. reflexivity. Qed.
Lemma progress_snoc i os o : progress i (os ++ [o]) = match o with Ord j => if i =? j then S (progress i os) else progress i os | Reset => 0 | _ => progress i os end.
Proof. unfold progress. rewrite fold_left_app. reflexivity. Qed.
Lemma past_snoc os o : past_of (os ++ [o]) = let p := past_of os in
  match o with Upd t => Past t (p_since p) (p_received p) | Recv => Past (p_now p) (p_since p) (p_received p ++ [p_now p])
             | Reset => Past (p_now p) (p_now p) [] | _ => p end.
Proof. unfold AccMon_Spec.past_of. rewrite fold_left_app. reflexivity. Qed.
Lemma remove_filter i l : remove Nat.eq_dec i l = filter (fun j => negb (i =? j)) l.
Proof. induction l as [|j l IH]; [reflexivity|]. cbn [remove filter]. destruct (Nat.eq_dec i j) as [->|N]; [rewrite Nat.eqb_refl; exact IH|]. rewrite (proj2 (Nat.eqb_neq i j) N). cbn. rewrite IH. reflexivity. Qed.
Lemma add_in i l : add i l = if in_dec Nat.eq_dec i l then l else l ++ [i].
Proof.
  unfold add. destruct (existsb (Nat.eqb i) l) eqn:E; destruct (in_dec Nat.eq_dec i l) as [I|I]; auto.
  - destruct I. apply existsb_exists in E as (j & J & E). apply Nat.eqb_eq in E. subst. exact J.
  - assert (X : existsb (Nat.eqb i) l = true) by (apply existsb_exists; exists i; split; [exact I|apply Nat.eqb_refl]). congruence.
Qed.
Lemma rep_step os s o s' : rep os s -> (forall t, o = Upd t -> (p_now (past_of os) <= t)%Z) -> step s o = Some s' -> rep (os ++ [o]) s'.
Proof.
  intros (I & D & N & T & R) M. unfold rep. rewrite members_snoc, past_snoc. cbn zeta.
  destruct o as [i|i| |t| |i]; cbn [AccMon_Model.step].
  - intros E. injection E as <-. repeat split; try (apply T); auto; cbn [insts]; [rewrite I; apply add_in|intros j; rewrite progress_snoc; apply D].
  - destruct (existsb (Nat.eqb i) (insts s)); [|discriminate]. intros E. injection E as <-.
    repeat split; try (apply T); auto; cbn [insts]; [rewrite I, remove_filter; reflexivity|intros j; rewrite progress_snoc; apply D].
  - intros E. injection E as <-. cbn [insts now rate p_now p_since p_received]. rewrite window_start.
    repeat split; auto; cbn; [intros j; rewrite progress_snoc; reflexivity|lia|intros r []].
  - unfold update_time. destruct (check _ _ _ _) as [al|] eqn:C; [|discriminate]. intros E. injection E as <-.
    cbn [insts now rate p_now p_since p_received].
    split; [exact I|]. split; [intros j; rewrite progress_snoc; apply D|]. split; [reflexivity|]. specialize (M t eq_refl). split.
    + unfold est_update_time. pose (p := past_of os). fold p in T, R, M. fold p.
      assert (K : tracks p (window_of (p_since p) t) (roll (Z.to_nat (t - e_start (rate s))) (rate s) t)).
      { apply (roll_ok p t _ (rate s) (window_of (p_since p) (p_now p)) T); [apply window_mono, M| |lia]. intros r J. apply window_mono, R, J. }
      destruct K as (K1 & K2 & K3). split; [exact K1|]. split; [exact K2|]. rewrite K3. apply ema_ext; reflexivity.
    + intros r J. specialize (R r J). lia.
  - intros E. injection E as <-. cbn [insts now rate p_now p_since p_received]. set (p := past_of os) in *.
    split; [exact I|]. split; [intros j; rewrite progress_snoc; apply D|]. split; [exact N|]. destruct T as (T1 & T2 & T3).
    assert (X : forall k, received_in (Past (p_now p) (p_since p) (p_received p ++ [p_now p])) k =
      received_in p k + (if window_of (p_since p) (p_now p) =? k then 1 else 0)).
    { intros k. unfold AccMon_Spec.received_in. cbn [p_since p_received]. rewrite filter_app, app_length. cbn [filter]. destruct (_ =? k); reflexivity. }
    split; [|intros r J; apply in_app_iff in J as [J|[<-|[]]]; [auto|lia]].
    split; [exact T1|]. cbn [est_add e_sum e_value]. split.
    + rewrite X, Nat.eqb_refl, T2. lia.
    + rewrite T3. apply ema_ext; [reflexivity|]. intros k K. rewrite X. destruct (Nat.eqb_spec (window_of (p_since p) (p_now p)) k); lia.
  - intros E. injection E as <-. repeat split; try (apply T); auto. intros j. rewrite progress_snoc. unfold done. cbn [ordered]. unfold get_or. rewrite get_set.
    destruct (Nat.eqb_spec j i) as [->|Ne]; [f_equal; apply D|apply D].
Qed.
Lemma timely_snoc os o : forall t, timely t (os ++ [o]) -> timely t os.
Proof. induction os as [|a os IH]; intros t H; [exact I|]. destruct a; cbn [app timely] in *; try (apply IH, H). destruct H as (A & B). split; [exact A|apply IH, B]. Qed.
Lemma timely_last os t : timely t0 (os ++ [Upd t]) -> (p_now (past_of os) <= t)%Z.
Proof.
  unfold AccMon_Spec.past_of. assert (G : forall os p, timely (p_now p) (os ++ [Upd t]) ->
    (p_now (fold_left (fun p o => match o with Upd t => Past t (p_since p) (p_received p) | Recv => Past (p_now p) (p_since p) (p_received p ++ [p_now p])
                        | Reset => Past (p_now p) (p_now p) [] | _ => p end) os p) <= t)%Z).
  { clear os. induction os as [|o os IH]; intros p H; [apply H|]. cbn [fold_left]. apply IH. destruct o; cbn [app timely] in H; try exact H. apply H. }
  apply (G os (Past t0 t0 [])).
Qed.
Lemma run_snoc os : forall s o, run s (os ++ [o]) = match run s os with Some s' => step s' o | None => None end.
Proof. induction os as [|a os IH]; intros s o; cbn [app AccMon_Model.run]; [destruct (step s o); reflexivity|]. destruct (step s a); [apply IH|reflexivity]. Qed.
Lemma run_rep os : forall s, timely t0 os -> run (init t0 l0) os = Some s -> rep os s.
Proof.
  induction os as [|o os IH] using rev_ind; intros s T R; [injection R as <-; apply rep_init|]. rewrite run_snoc in R.
  destruct (run (init t0 l0) os) as [s1|] eqn:E; [|discriminate]. apply (rep_step os s1 o s); [apply IH; [apply (timely_snoc _ _ _ T)|reflexivity]| |exact R].
  intros t ->. apply (timely_last os t T).
Qed.
(** *** who is behind *)
Lemma max_in (f : nat -> nat) l : l <> [] -> exists j, In j l /\ f j = fold_right Nat.max 0 (map f l).
Proof.
  induction l as [|i l IH]; [congruence|]. intros _. destruct l as [|i' l].
  - exists i. split; [left; reflexivity|]. cbn. lia.
  - destruct IH as (j & J & E); [discriminate|]. cbn [map fold_right] in *. destruct (Nat.max_spec (f i) (Nat.max (f i') (fold_right Nat.max 0 (map f l)))) as [(_ & X)|(_ & X)].
    + exists j. split; [right; exact J|]. rewrite X. exact E.
    + exists i. split; [left; reflexivity|]. rewrite X. reflexivity.
Qed.
Lemma max_ge (f : nat -> nat) l j : In j l -> f j <= fold_right Nat.max 0 (map f l).
Proof. induction l as [|i l IH]; intros H; [destruct H|]. cbn [map fold_right]. destruct H as [->|H]; [lia|]. specialize (IH H). lia. Qed.
Lemma qlt_bool a b : negb (Qle_bool b a) = true <-> (a < b)%Q.
Proof.
  rewrite negb_true_iff. split; intros H.
  - apply Qnot_le_lt. intros L. apply Qle_bool_iff in L. congruence.
  - destruct (Qle_bool b a) eqn:E; [|reflexivity]. apply Qle_bool_iff in E. exfalso. apply (Qlt_not_le _ _ H E).
Qed.
Lemma behind_lags os s i : rep os s -> (behind delta_k s i = true <-> lags delta_k window alpha t0 l0 os i).
Proof.
  intros (I & D & N & T & R). unfold behind, lags. rewrite I. destruct T as (_ & _ & T3).
  assert (IR : e_value (rate s) = input_rate window alpha t0 os) by exact T3. rewrite IR.
  destruct (Nat.ltb_spec (length (members l0 os)) 2) as [L|L].
  - split; [discriminate|]. intros (H & _). lia.
  - rewrite qlt_bool. split.
    + intros H. split; [exact L|]. destruct (max_in (done s) (members l0 os)) as (j & J & E); [intros X; rewrite X in L; simpl in L; lia|].
      exists j. split; [exact J|]. rewrite <- E in H. rewrite <- !D. exact H.
    + intros (_ & j & J & H). eapply Qlt_le_trans; [exact H|]. rewrite <- Zle_Qle. pose proof (max_ge (done s) _ _ J). rewrite <- !D. lia.
Qed.
(** *** alerts *)
Lemma check_get s i l : forall al al', check delta_k s l al = Some al' ->
  get i al' = if existsb (Nat.eqb i) l then (if behind delta_k s i then Some (match get i al with Some t => t | None => now s end) else None) else get i al.
Proof.
  induction l as [|j l IH]; intros al al'; cbn [check existsb]; [intros E; injection E as <-; reflexivity|].
  destruct (known s j); [|discriminate].
  destruct (get j al) as [t|] eqn:G, (behind delta_k s j) eqn:B; intros C; rewrite (IH _ _ C); destruct (Nat.eqb_spec i j) as [->|N]; cbn [orb]; auto;
    rewrite ?get_set, ?get_del, ?Nat.eqb_refl, ?(proj2 (Nat.eqb_neq i j) N), ?G, ?B; auto; destruct (existsb _ l); auto.
Qed.
Lemma existsb_in i l : existsb (Nat.eqb i) l = true <-> In i l.
Proof. rewrite existsb_exists. split; [intros (j & J & E); apply Nat.eqb_eq in E; subst; exact J|intros I; exists i; split; [exact I|apply Nat.eqb_refl]]. Qed.
(** what a step makes of the alert of [i] *)
Lemma alert_step os s o s' i : rep os s -> rep (os ++ [o]) s' -> step s o = Some s' ->
  match o with
  | Reset => get i (alerts s') = None
  | Upd t => (In i (members l0 os) -> lags delta_k window alpha t0 l0 (os ++ [o]) i -> get i (alerts s') = Some (match get i (alerts s) with Some x => x | None => t end)) /\
             (In i (members l0 os) -> ~ lags delta_k window alpha t0 l0 (os ++ [o]) i -> get i (alerts s') = None) /\
             (~ In i (members l0 os) -> get i (alerts s') = get i (alerts s))
  | _ => alerts s' = alerts s
  end.
Proof.
  intros R R' E. destruct o as [j|j| |t| |j]; cbn [AccMon_Model.step] in E; try (injection E as <-; reflexivity).
  - destruct (existsb (Nat.eqb j) (insts s)); [|discriminate]. injection E as <-. reflexivity.
  - unfold update_time in E. destruct (check _ _ _ _) as [al|] eqn:C; [|discriminate]. injection E as E. apply (check_get _ i) in C. cbn [now alerts insts] in C.
    assert (B : behind delta_k s' i = behind delta_k (Mon (insts s) (ordered s) t (alerts s) (keys s) (est_update_time window alpha (rate s) t)) i) by (rewrite <- E; reflexivity).
    rewrite <- B in C. pose proof (behind_lags _ _ i R') as BL. destruct R as (I & _). rewrite I in C.
    assert (G : get i (alerts s') = get i al) by (rewrite <- E; reflexivity). rewrite G, C. split; [|split].
    + intros M L. rewrite (proj2 (existsb_in _ _) M), (proj2 BL L). reflexivity.
    + intros M L. rewrite (proj2 (existsb_in _ _) M). destruct (behind delta_k s' i); [exfalso; apply L, BL; reflexivity|reflexivity].
    + intros M. destruct (existsb (Nat.eqb i) (members l0 os)) eqn:X; [apply existsb_in in X; contradiction|reflexivity].
Qed.
End Params.
