From Coq Require Import List Arith Bool Lia.
Import ListNotations.
From Verif Require Import Dict Conn_Model Conn_Spec.

Lemma mem_in x l : mem x l = true <-> In x l.
Proof. unfold mem. rewrite existsb_exists. split; [intros (y & H & E); apply Nat.eqb_eq in E; now subst|intros H; exists x; now rewrite Nat.eqb_refl]. Qed.
Lemma minus_in a b x : In x (minus a b) <-> In x a /\ ~ In x b.
Proof.
  unfold minus. rewrite filter_In, negb_true_iff. rewrite <- (mem_in x b). destruct (mem x b); intuition congruence.
Qed.
Lemma same_set_iff a b : same_set a b = true <-> forall x, In x a <-> In x b.
Proof.
  unfold same_set. rewrite andb_true_iff, !forallb_forall. split.
  - intros [H1 H2] x. split; intros H; apply mem_in; auto.
  - intros H. split; intros x Hx; apply mem_in; now apply H.
Qed.
Lemma addr_eqb_eq a b : addr_eqb a b = true <-> a = b.
Proof.
  unfold addr_eqb. rewrite andb_true_iff, !Nat.eqb_eq. destruct a, b; cbn. split; [intros [-> ->]; reflexivity|intros [= -> ->]; auto].
Qed.
Lemma ev_eqb_eq a b : ev_eqb a b = true <-> a = b.
Proof. destruct a, b; cbn; split; congruence. Qed.

(** * Events *)
(** on the reversed list *)
Definition first_lost (l : list ev) : Prop :=
  exists pre e post, l = pre ++ e :: post /\ (e = Disconnected \/ e = Closed) /\ forall x, In x pre -> x <> Connected /\ x <> Delayed.
Lemma ends_rev evs : ends_lost evs <-> first_lost (rev evs).
Proof.
  split.
  - intros (p & e & q & -> & He & Hq). exists (rev q), e, (rev p). rewrite rev_app_distr. cbn. rewrite <- app_assoc. cbn.
    repeat split; auto; intros; apply in_rev in H; apply Hq in H; tauto.
  - intros (p & e & q & E & He & Hq). exists (rev q), e, (rev p).
    assert (evs = rev (p ++ e :: q)) as -> by now rewrite <- E, rev_involutive.
    rewrite rev_app_distr. cbn. rewrite <- app_assoc. cbn. repeat split; auto; apply in_rev in H; apply Hq in H; tauto.
Qed.
Definition early (l : list ev) : bool :=
  let d := omin (index Disconnected l) (index Closed l) in olt d (index Connected l) && olt d (index Delayed l).
Lemma olt_S a b : olt (option_map S a) (option_map S b) = olt a b.
Proof. destruct a, b; reflexivity. Qed.
Lemma omin_S a b : omin (option_map S a) (option_map S b) = option_map S (omin a b).
Proof. destruct a, b; reflexivity. Qed.
Lemma index_cons e x l : index e (x :: l) = if ev_eqb e x then Some 0 else option_map S (index e l).
Proof. cbn. destruct (ev_eqb e x); auto. Qed.
Lemma olt_0_S o : olt (Some 0) (option_map S o) = true.
Proof. destruct o; reflexivity. Qed.
Lemma omin_0_l o : omin (Some 0) o = Some 0.
Proof. destruct o; reflexivity. Qed.
Lemma omin_0_r o : omin (option_map S o) (Some 0) = Some 0.
Proof. destruct o; reflexivity. Qed.
Lemma olt_r_0 o : olt o (Some 0) = false.
Proof. destruct o; [apply Nat.ltb_ge; lia|reflexivity]. Qed.
Lemma early_iff l : early l = true <-> first_lost l.
Proof.
  induction l as [|x l IH].
  - split; [discriminate|]. intros (p & e & q & E & _). destruct p; discriminate.
  - unfold early. rewrite !index_cons. destruct x; cbn [ev_eqb].
    + rewrite olt_r_0. split; [discriminate|]. intros (p & e & q & E & He & Hp). destruct p as [|y p].
      * injection E as <- <-. destruct He; discriminate.
      * injection E as <- E. destruct (Hp Connected (or_introl eq_refl)) as [H _]. now destruct H.
    + rewrite olt_r_0, andb_false_r. split; [discriminate|]. intros (p & e & q & E & He & Hp). destruct p as [|y p].
      * injection E as <- <-. destruct He; discriminate.
      * injection E as <- E. destruct (Hp Delayed (or_introl eq_refl)) as [_ H]. now destruct H.
    + rewrite omin_0_l, !olt_0_S. split; [|reflexivity]. intros _. exists [], Disconnected, l. repeat split; auto; intros; destruct H.
    + rewrite omin_0_r, !olt_0_S. split; [|reflexivity]. intros _. exists [], Closed, l. repeat split; auto; intros; destruct H.
    + rewrite omin_S, !olt_S. change (early l = true <-> first_lost (Other :: l)). rewrite IH. split.
      * intros (p & e & q & -> & He & Hp). exists (Other :: p), e, q. repeat split; auto; intros; destruct H as [<-|H]; try discriminate; apply Hp in H; tauto.
      * intros (p & e & q & E & He & Hp). destruct p as [|y p].
        -- injection E as <- <-. destruct He; discriminate.
        -- injection E as <- ->. exists p, e, q. repeat split; auto; intros; apply (Hp x); now right.
Qed.
Lemma lost_iff evs : lost evs = true <-> ends_lost evs.
Proof.
  rewrite ends_rev, <- early_iff. unfold lost. fold (early (rev evs)).
  destruct (existsb (ev_eqb Disconnected) evs || existsb (ev_eqb Closed) evs) eqn:E; [reflexivity|].
  split; [discriminate|]. intros H. apply early_iff in H. destruct H as (p & e & q & Er & He & _).
  assert (In e evs) as Hi by (apply in_rev; rewrite Er; apply in_elt).
  apply orb_false_iff in E. destruct E as [E1 E2]. destruct He as [-> | ->].
  - assert (existsb (ev_eqb Disconnected) evs = true) by (apply existsb_exists; exists Disconnected; auto). congruence.
  - assert (existsb (ev_eqb Closed) evs = true) by (apply existsb_exists; exists Closed; auto). congruence.
Qed.

Lemma nodup_snoc (l : list nat) x : NoDup l -> ~ In x l -> NoDup (l ++ [x]).
Proof.
  induction l as [|y l IH]; cbn; intros H Hx; [repeat constructor; auto|]. inversion H; subst. constructor; [|apply IH; tauto].
  rewrite in_app_iff. cbn. intuition.
Qed.
Lemma filter_nil {A} (f : A -> bool) l : (forall x, In x l -> f x = false) -> filter f l = [].
Proof. induction l as [|x l IH]; intros H; cbn; [reflexivity|]. rewrite (H x (or_introl eq_refl)). apply IH. intros y Hy. apply H. now right. Qed.

(** * Reports *)
Lemma forget_same o s : conns (forget o s) = conns s /\ reports (forget o s) = reports s.
Proof. unfold forget. destruct (get o (remotes s)); auto. Qed.
Lemma forgets_same l s : conns (fold_left (fun s o => forget o s) l s) = conns s /\ reports (fold_left (fun s o => forget o s) l s) = reports s.
Proof.
  revert s. induction l as [|o l IH]; intros s; cbn; [auto|]. destruct (IH (forget o s)) as [-> ->]. apply forget_same.
Qed.
Lemma changed_same ins s s' : conns_changed ins s = Some s' -> conns s' = conns s /\ reports s' = reports s.
Proof.
  revert s. induction ins as [|i ins IH]; intros s H; cbn [conns_changed] in H; [injection H as <-; auto|].
  destruct (get i (remotes s)) eqn:E; [|discriminate]. apply IH in H. destruct H as [-> ->]. apply forgets_same.
Qed.

Section Proofs.
  Variables (self : nat) (local : nat -> bool) (retry_connect retry_socket : bool) (max_retry timeout : nat).
  Notation step := (step self local retry_connect retry_socket max_retry timeout).
  Notation run := (run self local retry_connect retry_socket max_retry timeout).
  Notation maintain := (maintain self local retry_connect retry_socket max_retry timeout).
  Notation retry_one := (retry_one retry_socket max_retry).
  Notation retry_all := (retry_all retry_connect retry_socket max_retry).
  Notation missing := (missing self local).

  Definition quiet (s s' : state) : Prop := conns s' = conns s /\ reports s' = reports s.
  Lemma quiet_refl s : quiet s s.
  Proof. split; reflexivity. Qed.
  Lemma quiet_trans s1 s2 s3 : quiet s1 s2 -> quiet s2 s3 -> quiet s1 s3.
  Proof. intros [A B] [C D]. split; congruence. Qed.
  Lemma connect_quiet n a s : quiet s (connect n a s).
  Proof. unfold connect. destruct (get n (remotes s)); [split; reflexivity|]. destruct (get n (keys s)); split; reflexivity. Qed.
  Lemma connects_quiet m s : quiet s (connect_missing m s).
  Proof.
    revert s. induction m as [|x m IH]; intros s; [apply quiet_refl|]. cbn. eapply quiet_trans; [apply connect_quiet|apply IH].
  Qed.
  Lemma close_quiet r s : quiet s (close_socket r s).
  Proof. unfold close_socket. destruct (r_sock r); split; reflexivity. Qed.
  Lemma retry_one_quiet e n s : quiet s (retry_one e n s).
  Proof.
    unfold Conn_Model.retry_one. destruct (get n (remotes s)) as [r|]; [|apply quiet_refl]. destruct (mem n e); [split; reflexivity|].
    destruct (look r) as [r' c]. destruct c; [split; reflexivity|]. destruct (negb retry_socket); [split; reflexivity|].
    destruct (_ || _); [|split; reflexivity]. unfold reconnect. eapply quiet_trans; [|unfold open_socket; split; reflexivity].
    eapply quiet_trans; [|apply close_quiet]. split; reflexivity.
  Qed.
  Lemma retries_quiet e ns s : quiet s (fold_left (fun s n => retry_one e n s) ns s).
  Proof. revert s. induction ns as [|n ns IH]; intros s; [apply quiet_refl|]. cbn. eapply quiet_trans; [apply retry_one_quiet|apply IH]. Qed.
  Lemma maintain_quiet f s : quiet s (maintain f s).
  Proof.
    unfold Conn_Model.maintain. destruct (_ && _); [apply quiet_refl|]. cbv zeta. unfold Conn_Model.retry_all.
    eapply quiet_trans; [|destruct retry_connect; [apply retries_quiet|apply quiet_refl]].
    eapply quiet_trans; [|apply connects_quiet]. split; reflexivity.
  Qed.
  Lemma remove_quiet n s : quiet s (remove n s).
  Proof.
    unfold remove. destruct (get n (remotes s)) as [r|]; [|apply quiet_refl]. eapply quiet_trans; [apply close_quiet|].
    apply forget_same.
  Qed.

  Lemma replay_snoc rs i o : replay (rs ++ [(i, o)]) = minus (replay rs) o ++ i.
  Proof. unfold replay. rewrite fold_left_app. reflexivity. Qed.

  (** what a check comes to *)
  Lemma check_result s s' :
    check_conns s = Some s' ->
    (forall x, In x (conns s') <-> In x (connecteds (remotes s))) /\
    (quiet s s' \/ exists i o, reports s' = reports s ++ [(i, o)] /\ i ++ o <> [] /\
                               (forall x, In x i <-> In x (conns s') /\ ~ In x (conns s)) /\
                               (forall x, In x o <-> In x (conns s) /\ ~ In x (conns s'))).
  Proof.
    unfold check_conns. set (v := connecteds (remotes s)). set (s1 := with_remotes _ s).
    change (conns s1) with (conns s). destruct (same_set (conns s) v) eqn:E.
    - intros [= <-]. change (conns s1) with (conns s). split; [now apply same_set_iff|]. left. split; reflexivity.
    - destruct (conns_changed _ _) as [s2|] eqn:E2; [|discriminate]. intros [= <-]. apply changed_same in E2. destruct E2 as [Ec Er].
      cbn [conns report reports]. rewrite Ec, Er. cbn [conns reports with_conns with_remotes]. split; [reflexivity|].
      right. exists (minus v (conns s)), (minus (conns s) v). split; [reflexivity|]. split; [|split; intros x; apply minus_in].
      intros Hn. apply app_eq_nil in Hn. destruct Hn as [N1 N2].
      assert (same_set (conns s) v = true); [|congruence]. apply same_set_iff. intros x. split; intros Hx.
      + destruct (in_dec Nat.eq_dec x v); [assumption|]. assert (In x (minus (conns s) v)) as H by now apply minus_in. now rewrite N2 in H.
      + destruct (in_dec Nat.eq_dec x (conns s)); [assumption|]. assert (In x (minus v (conns s))) as H by now apply minus_in. now rewrite N1 in H.
  Qed.
  Lemma step_quiet s o s' : o <> Check -> step s o = Some s' -> quiet s s'.
  Proof.
    intros Hc H. destruct o; cbn [Conn_Model.step] in H; try congruence.
    - destruct (n =? self); injection H as <-; [split; reflexivity|].
      eapply quiet_trans; [|apply maintain_quiet]. split; reflexivity.
    - destruct (n =? self); injection H as <-; [split; reflexivity|].
      eapply quiet_trans; [|apply maintain_quiet]. destruct (remove_quiet n s). split; assumption.
    - destruct (n =? self); injection H as <-; [split; reflexivity|].
      eapply quiet_trans; [|apply maintain_quiet]. destruct (remove_quiet n s). split; assumption.
    - injection H as <-. destruct (n =? self); [split; reflexivity|]. eapply quiet_trans; [|apply remove_quiet]. split; reflexivity.
    - injection H as <-. apply maintain_quiet.
    - injection H as <-. destruct (_ || _); [|apply quiet_refl]. destruct (get k (by_key s)); [|apply quiet_refl].
      destruct (get n (remotes s)); [split; reflexivity|apply quiet_refl].
    - injection H as <-. destruct (get n (remotes s)) as [r|]; [|apply quiet_refl]. destruct (r_sock r); [split; reflexivity|apply quiet_refl].
    - injection H as <-. split; reflexivity.
  Qed.
  Lemma replay_inv os s s' :
    run s os = Some s' -> (forall x, In x (replay (reports s)) <-> In x (conns s)) -> forall x, In x (replay (reports s')) <-> In x (conns s').
  Proof.
    revert s. induction os as [|o os IH]; intros s H Hi; cbn [Conn_Model.run] in H; [injection H as <-; assumption|].
    destruct (step s o) as [s1|] eqn:E; [|discriminate]. apply (IH s1 H). clear IH H.
    assert (o = Check \/ o <> Check) as [-> | Hc] by (destruct o; auto; right; discriminate).
    - cbn [Conn_Model.step] in E. apply check_result in E. destruct E as [_ [[Ec Er]|(i & o & Er & _ & Hin & Hout)]].
      + rewrite Ec, Er. assumption.
      + intros x. rewrite Er, replay_snoc, in_app_iff, minus_in, Hin, Hout, Hi.
        destruct (in_dec Nat.eq_dec x (conns s)), (in_dec Nat.eq_dec x (conns s1)); tauto.
    - apply step_quiet in E; [|assumption]. destruct E as [Ec Er]. rewrite Ec, Er. assumption.
  Qed.

  (** * Who was heard *)
  Definition byk (s : state) : Prop :=
    NoDup (map fst (remotes s)) /\ forall k n, get k (by_key s) = Some n -> exists r, get n (remotes s) = Some r /\ r_key r = k.
  (** flags that are set, with a key of which was heard *)
  Definition heard (K : nat -> Prop) (s : state) : Prop := forall n r, get n (remotes s) = Some r -> r_conn r = true -> K (r_key r).

  Lemma byk_upd n r r' s : byk s -> get n (remotes s) = Some r -> r_key r' = r_key r -> byk (with_remotes (set n r' (remotes s)) s).
  Proof.
    intros [Hn Hb] Hg Hk. split; [apply nodup_set; assumption|]. intros k m H. cbn in H. destruct (Hb _ _ H) as (x & Hx & Ex). cbn [remotes with_remotes].
    rewrite get_set. destruct (Nat.eqb_spec m n) as [-> |]; [|eauto]. exists r'. split; [reflexivity|]. congruence.
  Qed.
  Lemma heard_upd K n r' s : heard K s -> (r_conn r' = true -> K (r_key r')) -> heard K (with_remotes (set n r' (remotes s)) s).
  Proof.
    intros H Hr m r Hg Hc. cbn in Hg. rewrite get_set in Hg. destruct (m =? n); [injection Hg as <-; auto|eapply H; eauto].
  Qed.
  Lemma look_same r : r_ha (fst (look r)) = r_ha r /\ r_key (fst (look r)) = r_key r /\ r_sock (fst (look r)) = r_sock r.
  Proof. unfold look. destruct (r_conn r); [|auto]. destruct (r_sock r) eqn:E; [|auto]. destruct (lost _); cbn; auto. Qed.
  Lemma look_conn r : r_conn (fst (look r)) = snd (look r).
  Proof. unfold look. destruct (r_conn r) eqn:E; [|auto]. destruct (r_sock r) eqn:E'; [|auto]. destruct (lost _); cbn; auto. Qed.
  Lemma look_kept r : snd (look r) = true -> r_conn r = true.
  Proof. unfold look. destruct (r_conn r); auto. Qed.
  Lemma get_map (f : remote -> remote) d n : get n (map (fun x : nat * remote => (fst x, f (snd x))) d) = option_map f (get n d).
  Proof. induction d as [|[m v] d IH]; cbn; [reflexivity|]. destruct (n =? m); auto. Qed.
  Lemma map_fst_map (f : remote -> remote) (d : dict remote) : map fst (map (fun x : nat * remote => (fst x, f (snd x))) d) = map fst d.
  Proof. rewrite map_map. reflexivity. Qed.

  Definition good (K : nat -> Prop) (s : state) : Prop := byk s /\ heard K s.
  Lemma forget_good K n s : good K s -> good K (forget n s).
  Proof.
    intros [[Hn Hb] Hh]. unfold forget. destruct (get n (remotes s)) as [r|] eqn:E; [|repeat split; assumption].
    split; [split|]; cbn [remotes by_key with_by_key with_remotes].
    - apply nodup_filter. assumption.
    - intros k m H. rewrite get_del in H. destruct (Nat.eqb_spec k (r_key r)); [discriminate|]. destruct (Hb _ _ H) as (x & Hx & Ex).
      rewrite get_del. destruct (Nat.eqb_spec m n) as [-> |]; [|eauto]. congruence.
    - intros m x H Hc. cbn in H. rewrite get_del in H. destruct (m =? n); [discriminate|]. eapply Hh; eauto.
  Qed.
  Lemma changed_good K ins s s' : good K s -> conns_changed ins s = Some s' -> good K s'.
  Proof.
    revert s. induction ins as [|i ins IH]; intros s Hg H; cbn [conns_changed] in H; [injection H as <-; assumption|].
    destruct (get i (remotes s)) as [r|]; [|discriminate]. apply (IH _ ) in H; [assumption|]. clear -Hg.
    generalize (map fst (filter (fun x : nat * remote => addr_eqb (r_ha (snd x)) (r_ha r) && negb (fst x =? i)) (remotes s))).
    intros l. revert s Hg. induction l as [|o l IHl]; intros s Hg; cbn; [assumption|]. apply IHl. now apply forget_good.
  Qed.
  Lemma check_good K s s' : good K s -> check_conns s = Some s' -> good K s'.
  Proof.
    intros [[Hn Hb] Hh]. unfold check_conns. set (s1 := with_remotes _ s).
    assert (good K s1) as H1.
    { unfold s1. split; [split|]; cbn [remotes by_key with_remotes].
      - rewrite (map_fst_map (fun r => fst (look r))). assumption.
      - intros k n H. destruct (Hb _ _ H) as (x & Hx & Ex). rewrite (get_map (fun r => fst (look r))), Hx. cbn. exists (fst (look x)). split; [reflexivity|].
        destruct (look_same x) as (_ & -> & _). assumption.
      - intros n r H Hc. cbn in H. rewrite (get_map (fun r => fst (look r))) in H. destruct (get n (remotes s)) as [x|] eqn:E; [|discriminate]. injection H as <-.
        rewrite look_conn in Hc. apply look_kept in Hc. destruct (look_same x) as (_ & -> & _). eapply Hh; eauto. }
    destruct (same_set _ _); [intros [= <-]; assumption|].
    destruct (conns_changed _ _) as [s2|] eqn:E; [|discriminate]. intros [= <-].
    assert (good K s2) as H2 by (eapply changed_good; [|exact E]; exact H1). exact H2.
  Qed.
  Lemma open_good K n r b s :
    good K s -> (forall k, get k (by_key s) = Some n -> k = r_key r) -> (b = true -> K (r_key r)) -> good K (open_socket n r b s).
  Proof.
    intros [[Hn Hb] Hh] Hk Hc. unfold open_socket. split; [split|]; cbn [remotes by_key with_remotes did with_open].
    - apply nodup_set. assumption.
    - intros k m H. destruct (Hb _ _ H) as (x & Hx & Ex). rewrite get_set. destruct (Nat.eqb_spec m n) as [-> |]; [|eauto].
      exists (with_sock (Some (next_sock s)) b r). split; [reflexivity|]. cbn. symmetry. auto.
    - intros m x H Hx. cbn in H. rewrite get_set in H. destruct (m =? n); [|eapply Hh; eauto]. injection H as <-. cbn in *. auto.
  Qed.
  Lemma byk_key s n r k : byk s -> get n (remotes s) = Some r -> get k (by_key s) = Some n -> k = r_key r.
  Proof. intros [_ Hb] Hg H. destruct (Hb _ _ H) as (x & Hx & <-). congruence. Qed.
  Lemma connect_good K n a s : good K s -> good K (connect n a s).
  Proof.
    intros Hg. unfold connect. destruct (get n (remotes s)) as [r|] eqn:E.
    - apply open_good; [assumption|intros k; apply (byk_key s n r k); [apply Hg|assumption]|]. intros Hc. destruct Hg as [_ Hh]. eapply Hh; eauto.
    - destruct (get n (keys s)) as [k|]; [|assumption]. destruct Hg as [[Hn Hb] Hh]. unfold open_socket.
      split; [split|]; cbn [remotes by_key with_remotes did with_open with_by_key].
      + apply nodup_set. assumption.
      + intros k' m H. rewrite get_set in H. destruct (Nat.eqb_spec k' k) as [-> |].
        * injection H as <-. rewrite get_set, Nat.eqb_refl. eexists. split; [reflexivity|]. reflexivity.
        * destruct (Hb _ _ H) as (x & Hx & Ex). rewrite get_set. destruct (Nat.eqb_spec m n) as [-> |]; [congruence|eauto].
      + intros m x H Hx. cbn in H. rewrite get_set in H. destruct (m =? n); [|eapply Hh; eauto]. injection H as <-. cbn in *. discriminate.
  Qed.
  Lemma close_good K r s : good K s -> good K (close_socket r s).
  Proof. unfold close_socket. destruct (r_sock r); auto. Qed.
  Lemma retry_one_good K e n s : good K s -> good K (retry_one e n s).
  Proof.
    intros Hg. unfold Conn_Model.retry_one. destruct (get n (remotes s)) as [r|] eqn:E; [|assumption]. destruct (mem n e); [exact Hg|].
    destruct (look r) as [r' c] eqn:El. destruct (look_same r) as (_ & Ek & Es). pose proof (look_conn r) as Ec. pose proof (look_kept r) as Hkept.
    rewrite El in *. cbn [fst snd] in *.
    assert (good K (with_remotes (set n r' (remotes s)) s)) as H1.
    { destruct Hg as [Hb Hh]. split; [eapply byk_upd; eauto|]. apply heard_upd; [assumption|]. intros Hc. rewrite Ek. apply (Hh n r E). apply Hkept. congruence. }
    destruct c; [exact H1|]. destruct (negb retry_socket); [exact H1|]. destruct (_ || _); [|exact H1].
    unfold reconnect. apply open_good; [apply close_good; exact H1| |discriminate].
    intros k Hk. eapply byk_key; [exact (proj1 H1)| |].
    - cbn. rewrite get_set, Nat.eqb_refl. reflexivity.
    - cbn. unfold close_socket in Hk. destruct (r_sock r'); exact Hk.
  Qed.
  Lemma maintain_good K f s : good K s -> good K (maintain f s).
  Proof.
    intros Hg. unfold Conn_Model.maintain. destruct (_ && _); [assumption|]. cbv zeta.
    set (s1 := with_time _ _ s). assert (good K s1) as H1 by exact Hg. clearbody s1. clear Hg.
    assert (good K (connect_missing (missing s1) s1)) as H2.
    { generalize (missing s1). intros m. revert s1 H1. induction m as [|x m IH]; intros s1 H1; cbn; [assumption|]. apply IH. now apply connect_good. }
    unfold Conn_Model.retry_all. destruct retry_connect; [|assumption]. revert H2. generalize (connect_missing (missing s1) s1). intros s2 H2.
    generalize (map fst (remotes s2)). generalize (map fst (missing s1)). intros e ns. revert s2 H2.
    induction ns as [|n ns IH]; intros s2 H2; cbn; [assumption|]. apply IH. now apply retry_one_good.
  Qed.
  Lemma remove_good K n s : good K s -> good K (remove n s).
  Proof. intros H. unfold remove. destruct (get n (remotes s)); [|assumption]. now apply forget_good, close_good. Qed.
  Lemma step_good K s o s' :
    good K s -> step s o = Some s' -> good (fun k => K k \/ exists b, o = Received k b) s'.
  Proof.
    intros Hg H. assert (good (fun k => K k \/ exists b, o = Received k b) s) as Hg' by (destruct Hg as [A B]; split; [exact A|]; intros n r Hr Hc; left; eapply B; eauto).
    clear Hg. destruct o; cbn [Conn_Model.step] in H.
    - destruct (n =? self); injection H as <-; [exact Hg'|]. apply maintain_good. exact Hg'.
    - destruct (n =? self); injection H as <-; [exact Hg'|]. apply maintain_good. apply (remove_good _ n s) in Hg'. exact Hg'.
    - destruct (n =? self); injection H as <-; [exact Hg'|]. apply maintain_good. apply (remove_good _ n s) in Hg'. exact Hg'.
    - injection H as <-. destruct (n =? self); [exact Hg'|]. apply remove_good. exact Hg'.
    - eapply check_good; eauto.
    - injection H as <-. apply maintain_good. exact Hg'.
    - injection H as <-. destruct (_ || _); [|exact Hg']. destruct (get k (by_key s)) as [n|] eqn:E; [|exact Hg'].
      destruct (get n (remotes s)) as [r|] eqn:E2; [|exact Hg']. destruct Hg' as [Hb Hh]. split; [eapply byk_upd; eauto|].
      apply heard_upd; [exact Hh|]. intros _. right. exists pong. f_equal. cbn. eapply byk_key; eauto.
    - injection H as <-. destruct (get n (remotes s)) as [r|] eqn:E2; [|exact Hg']. destruct (r_sock r); [|exact Hg']. destruct Hg' as [Hb Hh].
      split; [eapply byk_upd; eauto|]. apply heard_upd; [exact Hh|]. cbn. intros Hc. eapply Hh; eauto.
    - injection H as <-. exact Hg'.
  Qed.
  Lemma run_good os K s s' : good K s -> run s os = Some s' -> good (fun k => K k \/ exists b, In (Received k b) os) s'.
  Proof.
    revert K s. induction os as [|o os IH]; intros K s Hg H; cbn [Conn_Model.run] in H.
    - injection H as <-. destruct Hg as [A B]. split; [exact A|]. intros n r Hr Hc. left. eapply B; eauto.
    - destruct (step s o) as [s1|] eqn:E; [|discriminate]. pose proof (step_good K s o s1 Hg E) as H1. apply (IH _ _ H1) in H.
      destruct H as [A B]. split; [exact A|]. intros n r Hr Hc. destruct (B n r Hr Hc) as [[Hk|[b Hb]]|[b Hb]]; [auto| |].
      + right. exists b. left. assumption.
      + right. exists b. right. assumption.
  Qed.
  Lemma init_good reg ks : good (fun _ => False) (init reg ks).
  Proof. split; [split; [constructor|intros k n H; discriminate]|intros n r H; discriminate]. Qed.

  (** * Pools without shared addresses *)
  Definition inv5 (reg : dict addr) (ks : dict nat) (rem : dict remote) (nx : nat) (op : list nat) : Prop :=
    NoDup (map fst reg) /\ (forall m n a, get m reg = Some a -> get n reg = Some a -> m = n) /\ NoDup (map fst rem) /\
    (forall n r, get n rem = Some r -> n <> self /\ get n reg = Some (r_ha r) /\ get n ks = Some (r_key r) /\
                                       exists k, r_sock r = Some k /\ k < nx /\ In k op) /\
    (forall m n x y, get m rem = Some x -> get n rem = Some y -> r_sock x = r_sock y -> m = n) /\
    NoDup op /\ (forall k, In k op -> k < nx /\ exists n r, get n rem = Some r /\ r_sock r = Some k).
  Definition inv (s : state) : Prop := inv5 (registry s) (keys s) (remotes s) (next_sock s) (open s).

  Lemma upd_inv n r r' s :
    inv s -> get n (remotes s) = Some r -> r_ha r' = r_ha r -> r_key r' = r_key r -> r_sock r' = r_sock r ->
    inv (with_remotes (set n r' (remotes s)) s).
  Proof.
    intros (N & D & R & P & J & O & Q) Hg Eh Ek Es. unfold inv, inv5. cbn [registry keys remotes next_sock open with_remotes].
    split; [assumption|]. split; [assumption|]. split; [now apply nodup_set|]. split; [|split; [|split; [assumption|]]].
    - intros m x H. rewrite get_set in H. destruct (Nat.eqb_spec m n) as [-> |]; [|auto]. injection H as <-. rewrite Eh, Ek, Es. auto.
    - intros m m' x y Hx Hy E. rewrite get_set in Hx, Hy.
      destruct (Nat.eqb_spec m n) as [-> |], (Nat.eqb_spec m' n) as [-> |]; auto.
      + injection Hx as <-. apply (J n m' r y); auto. congruence.
      + injection Hy as <-. apply (J m n x r); auto. congruence.
      + apply (J m m' x y); auto.
    - intros k Hk. destruct (Q k Hk) as (L & m & x & Hx & Ex). split; [assumption|]. destruct (Nat.eq_dec m n) as [-> |].
      + exists n, r'. rewrite get_set, Nat.eqb_refl. split; congruence.
      + exists m, x. rewrite get_set. destruct (Nat.eqb_spec m n); [congruence|auto].
  Qed.
  Lemma open_new_inv n a k s :
    inv s -> n <> self -> get n (registry s) = Some a -> get n (keys s) = Some k -> get n (remotes s) = None ->
    forall r, r_ha r = a -> r_key r = k ->
    inv (open_socket n r false s).
  Proof.
    intros (N & D & R & P & J & O & Q) Hs Ha Hk Hn r Era Erk. unfold inv, inv5, open_socket.
    cbn [registry keys remotes next_sock open with_remotes did with_open].
    split; [assumption|]. split; [assumption|]. split; [now apply nodup_set|]. split; [|split; [|split]].
    - intros m x H. rewrite get_set in H. destruct (Nat.eqb_spec m n) as [-> |].
      + injection H as <-. cbn. rewrite Era, Erk. split; [auto|]. split; [auto|]. split; [auto|]. exists (next_sock s). split; [reflexivity|].
        split; [lia|]. rewrite in_app_iff. right. left. reflexivity.
      + destruct (P m x H) as (A & B & C & q & E & L & I). repeat split; auto. exists q. split; [assumption|]. split; [lia|]. rewrite in_app_iff. now left.
    - intros m m' x y Hx Hy E. rewrite get_set in Hx, Hy.
      destruct (Nat.eqb_spec m n) as [-> |], (Nat.eqb_spec m' n) as [-> |]; auto.
      + injection Hx as <-. cbn in E. destruct (P _ _ Hy) as (_ & _ & _ & q & Eq & L & _). rewrite Eq in E. injection E as E. lia.
      + injection Hy as <-. cbn in E. destruct (P _ _ Hx) as (_ & _ & _ & q & Eq & L & _). rewrite Eq in E. injection E as E. lia.
      + apply (J m m' x y); auto.
    - apply nodup_snoc; [assumption|]. intros H. apply Q in H. lia.
    - intros q H. rewrite in_app_iff in H. destruct H as [H|[<-|[]]].
      + destruct (Q q H) as (L & m & x & Hx & Ex). split; [lia|]. exists m, x. rewrite get_set. destruct (Nat.eqb_spec m n); [congruence|auto].
      + split; [lia|]. exists n. eexists. rewrite get_set, Nat.eqb_refl. split; reflexivity.
  Qed.
  Lemma reconnect_inv n r s : inv s -> get n (remotes s) = Some r -> inv (reconnect n r s).
  Proof.
    intros (N & D & R & P & J & O & Q) Hg. destruct (P _ _ Hg) as (A & B & C & q & E & L & I).
    unfold inv, inv5, reconnect, open_socket, close_socket. rewrite E. cbn [registry keys remotes next_sock open with_remotes did with_open].
    split; [assumption|]. split; [assumption|]. split; [now apply nodup_set|]. split; [|split; [|split]].
    - intros m x H. rewrite get_set in H. destruct (Nat.eqb_spec m n) as [-> |].
      + injection H as <-. cbn. repeat split; auto. exists (next_sock s). split; [reflexivity|].
        split; [lia|]. rewrite in_app_iff. right. left. reflexivity.
      + destruct (P m x H) as (A' & B' & C' & q' & E' & L' & I'). repeat split; auto. exists q'. split; [assumption|]. split; [lia|].
        rewrite in_app_iff, filter_In. left. split; [assumption|]. apply negb_true_iff, Nat.eqb_neq. intros ->. apply n0. eapply J; eauto. congruence.
    - intros m m' x y Hx Hy Exy. rewrite get_set in Hx, Hy.
      destruct (Nat.eqb_spec m n) as [-> |], (Nat.eqb_spec m' n) as [-> |]; auto.
      + injection Hx as <-. cbn in Exy. destruct (P _ _ Hy) as (_ & _ & _ & q' & Eq & L' & _). rewrite Eq in Exy. injection Exy as Exy. lia.
      + injection Hy as <-. cbn in Exy. destruct (P _ _ Hx) as (_ & _ & _ & q' & Eq & L' & _). rewrite Eq in Exy. injection Exy as Exy. lia.
      + apply (J m m' x y); auto.
    - apply nodup_snoc; [now apply NoDup_filter|]. intros H. apply filter_In in H. destruct H as [H _]. apply Q in H. lia.
    - intros q' H. rewrite in_app_iff in H. destruct H as [H|[<-|[]]].
      + apply filter_In in H. destruct H as [H Hq]. apply negb_true_iff, Nat.eqb_neq in Hq.
        destruct (Q q' H) as (L' & m & x & Hx & Ex). split; [lia|]. exists m, x. rewrite get_set. destruct (Nat.eqb_spec m n) as [-> |]; [congruence|auto].
      + split; [lia|]. exists n. eexists. rewrite get_set, Nat.eqb_refl. split; reflexivity.
  Qed.
  Lemma remove_inv n s : inv s -> inv (remove n s) /\ get n (remotes (remove n s)) = None /\ registry (remove n s) = registry s /\ keys (remove n s) = keys s.
  Proof.
    intros Hi. unfold remove. destruct (get n (remotes s)) as [r|] eqn:Hg; [|split; [exact Hi|auto]]. destruct Hi as (N & D & R & P & J & O & Q).
    destruct (P _ _ Hg) as (A & B & C & q & E & L & I). unfold close_socket, forget. rewrite E.
    cbn [registry keys remotes next_sock open with_remotes with_open]. rewrite Hg.
    unfold inv, inv5. cbn [registry keys remotes next_sock open with_remotes with_open with_by_key].
    split; [|split; [rewrite get_del, Nat.eqb_refl; reflexivity|auto]].
    split; [assumption|]. split; [assumption|]. split; [now apply nodup_filter|]. split; [|split; [|split]].
    - intros m x H. rewrite get_del in H. destruct (Nat.eqb_spec m n) as [-> |]; [discriminate|].
      destruct (P m x H) as (A' & B' & C' & q' & E' & L' & I'). repeat split; auto. exists q'. repeat split; auto.
      rewrite filter_In. split; [assumption|]. apply negb_true_iff, Nat.eqb_neq. intros ->. apply n0. eapply J; eauto. congruence.
    - intros m m' x y Hx Hy Exy. rewrite get_del in Hx, Hy.
      destruct (m =? n); [discriminate|]. destruct (m' =? n); [discriminate|]. eapply J; eauto.
    - now apply NoDup_filter.
    - intros q' H. apply filter_In in H. destruct H as [H Hq]. apply negb_true_iff, Nat.eqb_neq in Hq.
      destruct (Q q' H) as (L' & m & x & Hx & Ex). split; [assumption|]. exists m, x. rewrite get_del. destruct (Nat.eqb_spec m n) as [-> |]; [congruence|auto].
  Qed.
  Lemma addr_refl a : same_addr local a a = true.
  Proof. unfold same_addr. assert (addr_eqb a a = true) as -> by now apply addr_eqb_eq. reflexivity. Qed.

  (** what [maintain] leaves alone *)
  Definition grows (s s' : state) : Prop :=
    registry s' = registry s /\ keys s' = keys s /\
    forall n r, get n (remotes s) = Some r -> exists r', get n (remotes s') = Some r' /\ r_ha r' = r_ha r /\ r_key r' = r_key r.
  Lemma grows_refl s : grows s s.
  Proof. repeat split; eauto. Qed.
  Lemma grows_trans s1 s2 s3 : grows s1 s2 -> grows s2 s3 -> grows s1 s3.
  Proof.
    intros (A & B & C) (A' & B' & C'). repeat split; [congruence|congruence|]. intros n r H. destruct (C n r H) as (r1 & H1 & E1 & F1).
    destruct (C' n r1 H1) as (r2 & H2 & E2 & F2). exists r2. repeat split; congruence.
  Qed.
  Lemma connect_other n a s m : m <> n -> get m (remotes (connect n a s)) = get m (remotes s) /\ get m (retries (connect n a s)) = get m (retries s).
  Proof.
    intros Hm. unfold connect. destruct (get n (remotes s)) as [r|].
    - unfold open_socket. cbn. rewrite get_set. destruct (Nat.eqb_spec m n); [congruence|auto].
    - destruct (get n (keys s)) as [k|]; [|auto]. unfold open_socket. cbn. rewrite get_set. destruct (Nat.eqb_spec m n); [congruence|auto].
  Qed.
  Lemma connect_env n a s : registry (connect n a s) = registry s /\ keys (connect n a s) = keys s /\ retries (connect n a s) = retries s.
  Proof. unfold connect. destruct (get n (remotes s)); [auto|]. destruct (get n (keys s)); auto. Qed.
  Lemma connects_inv m s :
    inv s -> NoDup (map fst m) -> (forall n a, In (n, a) m -> n <> self /\ get n (registry s) = Some a /\ get n (remotes s) = None) ->
    inv (connect_missing m s) /\ registry (connect_missing m s) = registry s /\ keys (connect_missing m s) = keys s /\
    retries (connect_missing m s) = retries s /\
    (forall n, ~ In n (map fst m) -> get n (remotes (connect_missing m s)) = get n (remotes s)) /\
    (forall n a k, In (n, a) m -> get n (keys s) = Some k -> exists r, get n (remotes (connect_missing m s)) = Some r).
  Proof.
    revert s. induction m as [|[n a] m IH]; intros s Hi Hn Hm.
    - cbn. split; [exact Hi|]. split; [reflexivity|]. split; [reflexivity|]. split; [reflexivity|]. split; [intros; reflexivity|intros n a k []].
    - cbn [connect_missing fold_left fst snd]. inversion Hn as [|? ? Hx Hn']; subst. cbn [fst map] in *.
      destruct (Hm n a (or_introl eq_refl)) as (A & B & C). destruct (connect_env n a s) as (E1 & E2 & E3).
      assert (inv (connect n a s)) as H1.
      { unfold connect. rewrite C. destruct (get n (keys s)) as [k|] eqn:Ek; [|assumption]. eapply open_new_inv; cbn; eauto. }
      change (fold_left _ m (connect n a s)) with (connect_missing m (connect n a s)).
      destruct (IH (connect n a s) H1 Hn') as (I1 & I2 & I3 & I4 & I5 & I6).
      { intros n' a' H'. destruct (Hm n' a' (or_intror H')) as (A' & B' & C'). rewrite E1. repeat split; auto.
        destruct (connect_other n a s n') as [-> _]; auto. intros ->. apply Hx. apply (in_map fst) in H'. exact H'. }
      rewrite I2, I3, I4, E1, E2, E3. split; [assumption|]. split; [reflexivity|]. split; [reflexivity|]. split; [reflexivity|]. split.
      + intros n' H'. rewrite I5; [|intros Hx'; apply H'; now right]. apply connect_other. intros ->. apply H'. now left.
      + intros n' a' k [H'|H'] Hk.
        * injection H' as <- <-. rewrite I5 by assumption. unfold connect. rewrite C, Hk. unfold open_socket. cbn. rewrite get_set, Nat.eqb_refl. eauto.
        * apply (I6 n' a' k H'). now rewrite E2.
  Qed.
  Lemma retry_one_inv e n s : inv s -> inv (retry_one e n s) /\ grows s (retry_one e n s).
  Proof.
    intros Hi. unfold Conn_Model.retry_one. destruct (get n (remotes s)) as [r|] eqn:E; [|split; [assumption|apply grows_refl]].
    destruct (mem n e); [split; [exact Hi|]; repeat split; eauto|].
    destruct (look r) as [r' c] eqn:El. destruct (look_same r) as (Eh & Ek & Es). rewrite El in *. cbn [fst snd] in *.
    pose proof (upd_inv n r r' s Hi E Eh Ek Es) as H1.
    assert (grows s (with_remotes (set n r' (remotes s)) s)) as G1.
    { repeat split. intros m x Hx. cbn. rewrite get_set. destruct (Nat.eqb_spec m n) as [-> |]; [|eauto]. exists r'. assert (x = r) as -> by congruence. auto. }
    destruct c; [split; [exact H1|exact G1]|]. destruct (negb retry_socket); [split; [exact H1|exact G1]|].
    set (s1 := with_remotes (set n r' (remotes s)) s) in *.
    destruct (_ || _); [|split; [exact H1|exact G1]].
    assert (get n (remotes s1) = Some r') as Hg by (unfold s1; cbn; now rewrite get_set, Nat.eqb_refl).
    split; [apply reconnect_inv; [exact H1|exact Hg]|].
    eapply grows_trans; [exact G1|]. unfold reconnect, open_socket, close_socket.
    destruct (r_sock r'); (repeat split; intros m x Hx; cbn [remotes with_remotes did with_open with_retries] in *; rewrite get_set;
      destruct (Nat.eqb_spec m n) as [-> |]; [|eauto]; eexists; split; [reflexivity|]; cbn; assert (x = r') as -> by congruence; auto).
  Qed.
  Lemma retries_inv e ns s : inv s -> inv (fold_left (fun s n => retry_one e n s) ns s) /\ grows s (fold_left (fun s n => retry_one e n s) ns s).
  Proof.
    revert s. induction ns as [|n ns IH]; intros s Hi; cbn; [split; [assumption|apply grows_refl]|].
    destruct (retry_one_inv e n s Hi) as [H1 G1]. destruct (IH _ H1) as [H2 G2]. split; [assumption|]. eapply grows_trans; eauto.
  Qed.
  Lemma missing_ok s n a : inv s -> In (n, a) (missing s) -> n <> self /\ get n (registry s) = Some a /\ get n (remotes s) = None.
  Proof.
    intros (N & D & R & P & _) H. unfold Conn_Model.missing in H. apply filter_In in H. destruct H as [H Hc]. cbn [fst] in Hc.
    apply andb_true_iff in Hc. destruct Hc as [H1 H2]. apply negb_true_iff, Nat.eqb_neq in H2. split; [assumption|].
    assert (get n (registry s) = Some a) as Ha by now apply in_get. split; [assumption|]. apply negb_true_iff in H1. unfold matched in H1.
    destruct (get n (remotes s)) as [r|] eqn:E; [|reflexivity]. destruct (P n r E) as (_ & B & _). rewrite B, addr_refl in H1. discriminate.
  Qed.
  Lemma missing_nodup s : NoDup (map fst (registry s)) -> NoDup (map fst (missing s)).
  Proof. apply nodup_filter. Qed.
  Lemma maintain_inv f s :
    inv s -> inv (maintain f s) /\ grows s (maintain f s) /\
    (f = true \/ next_check s <= now s -> forall n a k, get n (registry s) = Some a -> n <> self -> get n (keys s) = Some k ->
       exists r, get n (remotes (maintain f s)) = Some r).
  Proof.
    intros Hi. unfold Conn_Model.maintain. destruct ((now s <? next_check s) && negb f) eqn:Ec.
    - split; [assumption|]. split; [apply grows_refl|]. intros [-> | H]; [rewrite andb_false_r in Ec; discriminate|].
      apply andb_true_iff in Ec. destruct Ec as [Ec _]. apply Nat.ltb_lt in Ec. lia.
    - cbv zeta. set (s1 := with_time (now s) (now s + timeout) s). assert (inv s1) as H1 by exact Hi.
      destruct (connects_inv (missing s1) s1 H1 (missing_nodup s1 (proj1 H1)) (fun n a => missing_ok s1 n a H1)) as (I1 & I2 & I3 & I4 & I5 & I6).
      set (s2 := connect_missing (missing s1) s1) in *.
      assert (grows s s2) as G2.
      { repeat split; [exact I2|exact I3|]. intros n r Hr. exists r. rewrite I5; [auto|]. intros Hx. apply in_map_iff in Hx. destruct Hx as ([n' a] & <- & Hx).
        apply (missing_ok s1 _ _ H1) in Hx. cbn in *. destruct Hx as (_ & _ & Hx). congruence. }
      assert (forall n a k, get n (registry s) = Some a -> n <> self -> get n (keys s) = Some k -> exists r, get n (remotes s2) = Some r) as C2.
      { intros n a k Ha Hn Hk. destruct (get n (remotes s)) as [r|] eqn:Er.
        - destruct G2 as (_ & _ & G). destruct (G n r Er) as (r' & Hr' & _). eauto.
        - apply (I6 n a k); [|exact Hk]. unfold Conn_Model.missing. apply filter_In. split; [now apply get_in|]. cbn [fst]. unfold matched.
          change (remotes s1) with (remotes s). rewrite Er. cbn. apply negb_true_iff, Nat.eqb_neq. assumption. }
      unfold Conn_Model.retry_all. destruct retry_connect.
      + destruct (retries_inv (map fst (missing s1)) (map fst (remotes s2)) s2 I1) as [J1 J2]. split; [assumption|]. split; [eapply grows_trans; eauto|].
        intros _ n a k Ha Hn Hk. destruct (C2 n a k Ha Hn Hk) as (r & Hr). destruct J2 as (_ & _ & G). destruct (G n r Hr) as (r' & Hr' & _). eauto.
      + split; [assumption|]. split; [assumption|]. intros _. assumption.
  Qed.

  (** in such pools a check removes nobody *)
  Lemma changed_inv ins s : inv s -> (forall i, In i ins -> exists r, get i (remotes s) = Some r) -> conns_changed ins s = Some s.
  Proof.
    intros Hi. induction ins as [|i ins IH]; intros H; cbn [conns_changed]; [reflexivity|].
    destruct (H i (or_introl eq_refl)) as (r & Hr). rewrite Hr.
    assert (filter (fun x : nat * remote => addr_eqb (r_ha (snd x)) (r_ha r) && negb (fst x =? i)) (remotes s) = []) as ->.
    { destruct Hi as (N & D & R & P & _). apply filter_nil. intros [m x] Hx. cbn [fst snd]. destruct (addr_eqb (r_ha x) (r_ha r)) eqn:E; [|reflexivity].
      apply addr_eqb_eq in E. apply in_get in Hx; [|assumption]. destruct (P _ _ Hx) as (_ & A & _). destruct (P _ _ Hr) as (_ & B & _).
      rewrite E in A. rewrite (D _ _ _ A B), Nat.eqb_refl. reflexivity. }
    cbn. apply IH. intros j Hj. apply H. now right.
  Qed.
  Lemma connecteds_in d n : NoDup (map fst d) -> (In n (connecteds d) <-> exists r, get n d = Some r /\ snd (look r) = true).
  Proof.
    intros Hn. unfold connecteds. rewrite in_map_iff. split.
    - intros ([m r] & <- & H). apply filter_In in H. destruct H as [H Hl]. exists r. split; [now apply in_get|assumption].
    - intros (r & Hr & Hl). exists (n, r). split; [reflexivity|]. apply filter_In. split; [now apply get_in|assumption].
  Qed.
  Definition looked (s : state) : state := with_remotes (map (fun x => (fst x, fst (look (snd x)))) (remotes s)) s.
  Lemma looked_inv s : inv s -> inv (looked s).
  Proof.
    intros (N & D & R & P & J & O & Q). unfold inv, inv5, looked. cbn [registry keys remotes next_sock open with_remotes].
    split; [assumption|]. split; [assumption|]. split; [now rewrite (map_fst_map (fun r => fst (look r)))|]. split; [|split; [|split; [assumption|]]].
    - intros n r H. rewrite (get_map (fun r => fst (look r))) in H. destruct (get n (remotes s)) as [x|] eqn:E; [|discriminate]. injection H as <-.
      destruct (look_same x) as (-> & -> & ->). auto.
    - intros m n x y Hx Hy E. rewrite (get_map (fun r => fst (look r))) in Hx, Hy.
      destruct (get m (remotes s)) as [x'|] eqn:Ex; [|discriminate]. destruct (get n (remotes s)) as [y'|] eqn:Ey; [|discriminate].
      injection Hx as <-. injection Hy as <-. destruct (look_same x') as (_ & _ & S1). destruct (look_same y') as (_ & _ & S2). apply (J m n x' y'); auto. congruence.
    - intros k Hk. destruct (Q k Hk) as (L & m & x & Hx & Ex). split; [assumption|]. exists m, (fst (look x)). rewrite (get_map (fun r => fst (look r))), Hx.
      split; [reflexivity|]. now destruct (look_same x) as (_ & _ & ->).
  Qed.
  Lemma check_inv s :
    inv s -> exists s', check_conns s = Some s' /\ inv s' /\ registry s' = registry s /\ keys s' = keys s /\ remotes s' = remotes (looked s).
  Proof.
    intros Hi. unfold check_conns. change (with_remotes (map (fun x => (fst x, fst (look (snd x)))) (remotes s)) s) with (looked s).
    destruct (same_set _ _); [exists (looked s); split; [reflexivity|]; split; [now apply looked_inv|]; split; [reflexivity|]; split; reflexivity|].
    rewrite changed_inv.
    - eexists. split; [reflexivity|]. split; [exact (looked_inv s Hi)|]. split; [reflexivity|]. split; reflexivity.
    - apply (looked_inv s Hi).
    - intros i Hx. apply minus_in in Hx. destruct Hx as [Hx _]. apply connecteds_in in Hx; [|apply Hi]. destruct Hx as (r & Hr & _).
      unfold looked. cbn [remotes with_remotes with_conns]. rewrite (get_map (fun r => fst (look r))), Hr. eexists. reflexivity.
  Qed.

  Lemma reg_inv n a s : inv s -> get n (remotes s) = None -> (forall m b, m <> n -> get m (registry s) = Some b -> b <> a) ->
    inv (with_registry (set n a (registry s)) s).
  Proof.
    intros (N & D & R & P & J & O & Q) Hn Hd. unfold inv, inv5. cbn [registry keys remotes next_sock open with_registry].
    split; [now apply nodup_set|]. split; [|split; [assumption|split; [|auto]]].
    - intros m m' b H H'. rewrite get_set in H, H'. destruct (Nat.eqb_spec m n) as [-> |], (Nat.eqb_spec m' n) as [-> |]; auto.
      + injection H as <-. destruct (Hd m' a); auto.
      + injection H' as <-. destruct (Hd m a); auto.
      + eapply D; eauto.
    - intros m r H. destruct (P m r H) as (A & B & C). rewrite get_set. destruct (Nat.eqb_spec m n) as [-> |]; [congruence|auto].
  Qed.
  Lemma keys_inv n k s : inv s -> get n (remotes s) = None -> inv (with_keys (set n k (keys s)) s).
  Proof.
    intros (N & D & R & P & J & O & Q) Hn. unfold inv, inv5. cbn [registry keys remotes next_sock open with_keys].
    repeat (split; [assumption|]). split; [|auto]. intros m r H. destruct (P m r H) as (A & B & C & E). rewrite get_set.
    destruct (Nat.eqb_spec m n) as [-> |]; [congruence|auto].
  Qed.
  Lemma not_self s : inv s -> get self (remotes s) = None.
  Proof. intros (N & D & R & P & _). destruct (get self (remotes s)) as [r|] eqn:E; [|reflexivity]. destruct (P _ _ E) as [H _]. congruence. Qed.

  Lemma step_inv s o : inv s -> pool_step s o -> exists s', step s o = Some s' /\ inv s'.
  Proof.
    intros Hi Hp. destruct o; cbn [Conn_Model.step pool_step] in *.
    - destruct Hp as [Hn Hd]. assert (get n (remotes s) = None) as Hr.
      { destruct (get n (remotes s)) as [r|] eqn:E; [|reflexivity]. destruct Hi as (_ & _ & _ & P & _). destruct (P _ _ E) as (_ & H & _). congruence. }
      destruct (n =? self); (eexists; split; [reflexivity|]).
      + apply reg_inv; auto. intros m b _. apply Hd.
      + apply maintain_inv. apply (reg_inv n a (with_keys (set n k (keys s)) s)); [now apply keys_inv|exact Hr|]. intros m b _. apply Hd.
    - destruct Hp as [[b Hb] Hd]. destruct (Nat.eqb_spec n self) as [-> |]; (eexists; split; [reflexivity|]).
      + apply reg_inv; auto. now apply not_self.
      + destruct (remove_inv n s Hi) as (I1 & I2 & I3 & I4). apply maintain_inv. rewrite <- I3. apply reg_inv; auto. rewrite I3. exact Hd.
    - destruct (n =? self); [eauto|]. eexists. split; [reflexivity|]. destruct (remove_inv n s Hi) as (I1 & I2 & I3 & I4).
      apply maintain_inv. rewrite <- I4. now apply keys_inv.
    - eexists. split; [reflexivity|]. destruct (Nat.eqb_spec n self) as [-> |].
      + pose proof (not_self s Hi) as Hs. destruct Hi as (N & D & R & P & J & O & Q). unfold inv, inv5. cbn [registry keys remotes next_sock open with_registry].
        split; [now apply nodup_filter|]. split; [|split; [assumption|split; [|auto]]].
        * intros m m' x H H'. rewrite get_del in H, H'. destruct (m =? self); [discriminate|]. destruct (m' =? self); [discriminate|]. eapply D; eauto.
        * intros m r H. destruct (P m r H) as (A & B & C). rewrite get_del. destruct (Nat.eqb_spec m self); [congruence|auto].
      + destruct (remove_inv n s Hi) as (I1 & I2 & I3 & I4).
        assert (remove n (with_registry (del n (registry s)) s) = with_registry (del n (registry (remove n s))) (remove n s)) as ->.
        { unfold remove, forget, close_socket. cbn [remotes with_registry]. destruct (get n (remotes s)) as [r|]; [|reflexivity].
          destruct (r_sock r); cbn [remotes with_registry with_open]; destruct (get n (remotes s)); reflexivity. }
        destruct I1 as (N & D & R & P & J & O & Q). unfold inv, inv5. cbn [registry keys remotes next_sock open with_registry].
        split; [now apply nodup_filter|]. split; [|split; [assumption|split; [|auto]]].
        * intros m m' x H H'. rewrite get_del in H, H'. destruct (m =? n); [discriminate|]. destruct (m' =? n); [discriminate|]. eapply D; eauto.
        * intros m r H. destruct (P m r H) as (A & B & C). rewrite get_del. destruct (Nat.eqb_spec m n); [congruence|auto].
    - destruct (check_inv s Hi) as (s' & H & H' & _). eauto.
    - eexists. split; [reflexivity|]. now apply maintain_inv.
    - eexists. split; [reflexivity|]. destruct (_ || _); [|assumption]. destruct (get k (by_key s)) as [n|]; [|assumption].
      destruct (get n (remotes s)) as [r|] eqn:E; [|assumption]. eapply upd_inv; eauto.
    - eexists. split; [reflexivity|]. destruct (get n (remotes s)) as [r|] eqn:E; [|assumption]. destruct (r_sock r) eqn:Es; [|assumption].
      eapply upd_inv; eauto.
    - eexists. split; [reflexivity|]. exact Hi.
  Qed.
  Lemma change_inv s o s' n a k : inv s -> pool_step s o -> step s o = Some s' -> n <> self ->
    o = Join n a k \/ (o = Move n a /\ get n (keys s) = Some k) \/ (o = Rekey n k /\ get n (registry s) = Some a) ->
    inv s' /\ get n (registry s') = Some a /\ get n (keys s') = Some k /\ exists r, get n (remotes s') = Some r.
  Proof.
    intros Hi Hp H Hs Ho. destruct (step_inv s o Hi Hp) as (s1 & E & Hi'). assert (s1 = s') as -> by congruence. split; [exact Hi'|].
    assert (exists x, inv x /\ s' = maintain true x /\ get n (registry x) = Some a /\ get n (keys x) = Some k) as (x & Hx & -> & A & B).
    { clear E. destruct Ho as [-> |[[-> Hk]|[-> Hr]]]; cbn [Conn_Model.step pool_step] in *; destruct (Nat.eqb_spec n self); try contradiction; injection H as <-.
      - destruct Hp as [Hn Hd]. assert (get n (remotes s) = None) as Hr.
        { destruct (get n (remotes s)) as [r|] eqn:E; [|reflexivity]. destruct Hi as (_ & _ & _ & P & _). destruct (P _ _ E) as (_ & H & _). congruence. }
        eexists. split; [|split; [reflexivity|]].
        + apply (reg_inv n a (with_keys (set n k (keys s)) s)); [now apply keys_inv|exact Hr|]. intros m b _. apply Hd.
        + cbn [registry keys with_registry with_keys]. rewrite !get_set, Nat.eqb_refl. auto.
      - destruct Hp as [[b Hb] Hd]. destruct (remove_inv n s Hi) as (I1 & I2 & I3 & I4). eexists. split; [|split; [reflexivity|]].
        + rewrite <- I3. apply reg_inv; auto. rewrite I3. exact Hd.
        + cbn [registry keys with_registry with_keys]. rewrite get_set, Nat.eqb_refl, I4. auto.
      - destruct (remove_inv n s Hi) as (I1 & I2 & I3 & I4). eexists. split; [|split; [reflexivity|]].
        + rewrite <- I4. now apply keys_inv.
        + cbn [registry keys with_registry with_keys]. rewrite get_set, Nat.eqb_refl, I3. auto. }
    destruct (maintain_inv true x Hx) as (_ & (G1 & G2 & _) & M). rewrite G1, G2. eauto.
  Qed.
  Lemma pool_run_app a b s s1 : run s a = Some s1 -> pool_run self local retry_connect retry_socket max_retry timeout s (a ++ b) ->
    pool_run self local retry_connect retry_socket max_retry timeout s a /\ pool_run self local retry_connect retry_socket max_retry timeout s1 b.
  Proof.
    revert s. induction a as [|o a IH]; intros s E Hp; cbn [Conn_Model.run app pool_run] in *; [injection E as <-; auto|].
    destruct Hp as [H1 H2]. destruct (step s o) as [s2|] eqn:E2; [|discriminate]. destruct (IH s2 E H2) as [A B]. auto.
  Qed.
  Lemma run_inv os s : inv s -> pool_run self local retry_connect retry_socket max_retry timeout s os -> exists s', run s os = Some s' /\ inv s'.
  Proof.
    revert s. induction os as [|o os IH]; intros s Hi Hp; cbn [Conn_Model.run]; [eauto|]. destruct Hp as [H1 H2].
    destruct (step_inv s o Hi H1) as (s' & E & Hi'). rewrite E in *. auto.
  Qed.
  Lemma init_inv reg ks : pool_init reg -> inv (init reg ks).
  Proof.
    intros [A B]. unfold inv, inv5, init. cbn. repeat split; auto; try constructor; try (intros; discriminate); try (intros k []). all: contradiction.
  Qed.

  (** * Trying again *)
  Ltac prj := cbn [registry keys remotes by_key retries conns now next_check next_sock open with_registry with_keys with_remotes with_by_key
                   with_retries with_conns with_time with_open did report].
  Lemma retry_one_other e m s n : n <> m ->
    get n (remotes (retry_one e m s)) = get n (remotes s) /\ get n (retries (retry_one e m s)) = get n (retries s).
  Proof.
    intros Hn. apply Nat.eqb_neq in Hn. unfold Conn_Model.retry_one. destruct (get m (remotes s)) as [r|]; [|auto].
    destruct (mem m e); [prj; rewrite get_del, Hn; auto|]. destruct (look r) as [r' c].
    destruct c; [prj; rewrite get_del, get_set, Hn; auto|]. destruct (negb retry_socket); [prj; rewrite get_set, Hn; auto|].
    destruct (_ || _); [|prj; rewrite !get_set, Hn; auto]. unfold reconnect, open_socket, close_socket.
    destruct (r_sock r'); prj; rewrite !get_set, ?get_del, Hn; auto.
  Qed.
  Lemma retry_fold_other e ms s n : ~ In n ms ->
    get n (remotes (fold_left (fun s m => retry_one e m s) ms s)) = get n (remotes s) /\
    get n (retries (fold_left (fun s m => retry_one e m s) ms s)) = get n (retries s).
  Proof.
    revert s. induction ms as [|m ms IH]; intros s H; [auto|]. cbn [fold_left]. destruct (IH (retry_one e m s)) as [-> ->]; [intros Hx; apply H; now right|].
    apply retry_one_other. intros ->. apply H. now left.
  Qed.
  Lemma next_sock_retry e m s : next_sock s <= next_sock (retry_one e m s).
  Proof.
    unfold Conn_Model.retry_one. destruct (get m (remotes s)) as [r|]; [|auto]. destruct (mem m e); [prj; auto|]. destruct (look r) as [r' c].
    destruct c; [prj; auto|]. destruct (negb retry_socket); [prj; auto|]. destruct (_ || _); [|prj; auto].
    unfold reconnect, open_socket, close_socket. destruct (r_sock r'); prj; auto.
  Qed.
  Lemma next_sock_fold e ms s : next_sock s <= next_sock (fold_left (fun s m => retry_one e m s) ms s).
  Proof. revert s. induction ms as [|m ms IH]; intros s; [auto|]. cbn [fold_left]. etransitivity; [apply next_sock_retry|apply IH]. Qed.
  Lemma next_sock_connect n a s : next_sock s <= next_sock (connect n a s).
  Proof. unfold connect. destruct (get n (remotes s)); [unfold open_socket; prj; auto|]. destruct (get n (keys s)); [unfold open_socket; prj; auto|auto]. Qed.
  Lemma next_sock_connects m s : next_sock s <= next_sock (connect_missing m s).
  Proof. revert s. induction m as [|x m IH]; intros s; [auto|]. cbn. etransitivity; [apply next_sock_connect|apply IH]. Qed.

  Lemma fold_at e ms s n : In n ms -> NoDup ms ->
    exists s1, get n (remotes s1) = get n (remotes s) /\ get n (retries s1) = get n (retries s) /\ next_sock s <= next_sock s1 /\
      get n (remotes (fold_left (fun s m => retry_one e m s) ms s)) = get n (remotes (retry_one e n s1)) /\
      get n (retries (fold_left (fun s m => retry_one e m s) ms s)) = get n (retries (retry_one e n s1)).
  Proof.
    intros Hin Hd. apply in_split in Hin. destruct Hin as (p & q & ->). rewrite fold_left_app. cbn [fold_left].
    apply NoDup_remove_2 in Hd. rewrite in_app_iff in Hd. exists (fold_left (fun s m => retry_one e m s) p s).
    destruct (retry_fold_other e p s n) as [A B]; [tauto|]. destruct (retry_fold_other e q (retry_one e n (fold_left (fun s m => retry_one e m s) p s)) n) as [C D]; [tauto|].
    repeat split; auto. apply next_sock_fold.
  Qed.

  (** one more try, for a node that is not connected *)
  Lemma maintain_retry f s n r :
    inv s -> retry_connect = true -> retry_socket = true -> f = true \/ next_check s <= now s -> get n (remotes s) = Some r -> r_conn r = false ->
    let k := get_or n 0 (retries s) in
    if max_retry <=? k
    then exists q, next_sock s <= q /\ get n (remotes (maintain f s)) = Some (with_sock (Some q) false r) /\ get_or n 0 (retries (maintain f s)) = 0
    else get n (remotes (maintain f s)) = Some r /\ get_or n 0 (retries (maintain f s)) = S k.
  Proof.
    intros Hi Hc Hs Hf Hr Hn k. unfold Conn_Model.maintain.
    assert ((now s <? next_check s) && negb f = false) as ->.
    { destruct Hf as [-> |Hf]; [apply andb_false_r|]. apply andb_false_iff. left. apply Nat.ltb_ge. assumption. }
    cbv zeta. unfold Conn_Model.retry_all. rewrite Hc. set (s0 := with_time (now s) (now s + timeout) s).
    assert (inv s0) as Hi0 by exact Hi.
    assert (NoDup (map fst (missing s0))) as Hd by (apply missing_nodup, Hi0).
    destruct (connects_inv (missing s0) s0 Hi0 Hd (fun m a => missing_ok s0 m a Hi0)) as (I1 & _ & _ & I4 & I5 & _).
    assert (~ In n (map fst (missing s0))) as Hm.
    { intros H. apply in_map_iff in H. destruct H as ([m a] & <- & H). apply (missing_ok s0 m a Hi0) in H. cbn [fst] in *. destruct H as (_ & _ & H).
      change (remotes s0) with (remotes s) in H. congruence. }
    pose proof (I5 n Hm) as Hg. change (remotes s0) with (remotes s) in Hg. change (retries s0) with (retries s) in I4. rewrite Hr in Hg.
    pose proof (next_sock_connects (missing s0) s0) as Hx. change (next_sock s0) with (next_sock s) in Hx.
    set (s1 := connect_missing (missing s0) s0) in *. set (e := map fst (missing s0)) in *. clearbody s1 e.
    assert (In n (map fst (remotes s1))) as Hin. { apply get_in in Hg. now apply (in_map fst) in Hg. }
    destruct (fold_at e (map fst (remotes s1)) s1 n Hin) as (s2 & A & B & C & D & E); [apply I1|]. unfold get_or in *. rewrite D, E. clear D E. subst k.
    rewrite Hg in A. rewrite I4 in B. unfold Conn_Model.retry_one. rewrite A.
    assert (mem n e = false) as -> by (destruct (mem n e) eqn:M; [apply mem_in in M; contradiction|reflexivity]).
    unfold look. rewrite Hn, Hs. cbn [negb]. unfold get_or. prj. rewrite B.
    destruct (proj1 (proj2 (proj2 (proj2 Hi))) n r Hr) as (_ & _ & _ & q & Eq & _). rewrite Eq. cbn [orb].
    set (k := match get n (retries s) with Some x => x | None => 0 end). destruct (max_retry <=? k).
    - unfold reconnect, open_socket, close_socket. rewrite Eq. prj. exists (next_sock s2). split; [lia|].
      rewrite get_set, get_del, Nat.eqb_refl. auto.
    - prj. rewrite !get_set, Nat.eqb_refl. auto.
  Qed.

  (** the clock *)
  Definition clock (s s' : state) : Prop := now s' = now s /\ next_check s' = next_check s.
  Lemma clock_connects m s : clock s (connect_missing m s).
  Proof.
    revert s. induction m as [|x m IH]; intros s; [split; reflexivity|]. cbn. destruct (IH (connect (fst x) (snd x) s)) as [A B]. unfold connect, clock in *.
    destruct (get (fst x) (remotes s)); [auto|]. destruct (get (fst x) (keys s)); auto.
  Qed.
  Lemma clock_retry e n s : clock s (retry_one e n s).
  Proof.
    unfold Conn_Model.retry_one. destruct (get n (remotes s)) as [r|]; [|split; reflexivity]. destruct (mem n e); [split; reflexivity|].
    destruct (look r) as [r' c]. destruct c; [split; reflexivity|]. destruct (negb retry_socket); [split; reflexivity|].
    destruct (_ || _); [|split; reflexivity]. unfold reconnect, open_socket, close_socket. destruct (r_sock r'); split; reflexivity.
  Qed.
  Lemma clock_retries e ns s : clock s (fold_left (fun s n => retry_one e n s) ns s).
  Proof.
    revert s. induction ns as [|n ns IH]; intros s; [split; reflexivity|]. cbn [fold_left]. destruct (IH (retry_one e n s)) as [A B].
    destruct (clock_retry e n s) as [C D]. split; congruence.
  Qed.
  Lemma clock_maintain f s : now (maintain f s) = now s /\ (next_check (maintain f s) = next_check s \/ next_check (maintain f s) = now s + timeout).
  Proof.
    unfold Conn_Model.maintain. destruct (_ && _); [auto|]. cbv zeta. unfold Conn_Model.retry_all. set (s0 := with_time _ _ s).
    destruct (clock_connects (missing s0) s0) as [A B]. destruct retry_connect.
    - destruct (clock_retries (map fst (missing s0)) (map fst (remotes (connect_missing (missing s0) s0))) (connect_missing (missing s0) s0)) as [C D].
      rewrite C, D, A, B. unfold s0. prj. auto.
    - rewrite A, B. unfold s0. prj. auto.
  Qed.
  Lemma clock_forget l s : clock s (fold_left (fun s o => forget o s) l s).
  Proof.
    revert s. induction l as [|o l IH]; intros s; [split; reflexivity|]. cbn [fold_left]. unfold clock in *. destruct (IH (forget o s)) as [-> ->].
    unfold forget. destruct (get o (remotes s)); split; reflexivity.
  Qed.
  Lemma clock_changed ins s s' : conns_changed ins s = Some s' -> clock s s'.
  Proof.
    revert s. induction ins as [|i ins IH]; intros s H; cbn [conns_changed] in H; [injection H as <-; split; reflexivity|].
    destruct (get i (remotes s)) as [r|]; [|discriminate]. apply IH in H. unfold clock in *. destruct H as [-> ->]. apply clock_forget.
  Qed.
  Lemma clock_check s s' : check_conns s = Some s' -> clock s s'.
  Proof.
    unfold check_conns. destruct (same_set _ _); [intros [= <-]; split; reflexivity|]. destruct (conns_changed _ _) as [s1|] eqn:E; [|discriminate].
    intros [= <-]. apply clock_changed in E. exact E.
  Qed.
  Lemma clock_remove n s : clock s (remove n s).
  Proof. unfold remove, forget, close_socket. destruct (get n (remotes s)) as [r|]; [|split; reflexivity]. destruct (r_sock r); prj; destruct (get n (remotes s)); split; reflexivity. Qed.
  Definition timely (s : state) : Prop := next_check s <= now s + timeout.
  Lemma timely_maintain f s : timely s -> timely (maintain f s).
  Proof. unfold timely. intros H. destruct (clock_maintain f s) as [-> [-> | ->]]; lia. Qed.
  Lemma timely_remove n s : timely s -> timely (remove n s).
  Proof. unfold timely. intros H. destruct (clock_remove n s) as [-> ->]. exact H. Qed.
  Lemma step_timely s o s' : timely s -> step s o = Some s' -> timely s'.
  Proof.
    intros Ht H. destruct o; cbn [Conn_Model.step] in H.
    - destruct (n =? self); injection H as <-; [exact Ht|]. apply timely_maintain. exact Ht.
    - destruct (n =? self); injection H as <-; [exact Ht|]. apply timely_maintain. apply (timely_remove n) in Ht. exact Ht.
    - destruct (n =? self); injection H as <-; [exact Ht|]. apply timely_maintain. apply (timely_remove n) in Ht. exact Ht.
    - injection H as <-. destruct (n =? self); [exact Ht|]. apply timely_remove. exact Ht.
    - apply clock_check in H. unfold timely in *. destruct H as [-> ->]. exact Ht.
    - injection H as <-. now apply timely_maintain.
    - injection H as <-. destruct (_ || _); [|exact Ht]. destruct (get k (by_key s)) as [n|]; [|exact Ht]. destruct (get n (remotes s)); exact Ht.
    - injection H as <-. destruct (get n (remotes s)) as [r|]; [|exact Ht]. destruct (r_sock r); exact Ht.
    - injection H as <-. unfold timely in *. prj. lia.
  Qed.
  Lemma run_timely os s s' : timely s -> run s os = Some s' -> timely s'.
  Proof.
    revert s. induction os as [|o os IH]; intros s Ht H; cbn [Conn_Model.run] in H; [injection H as <-; exact Ht|].
    destruct (step s o) as [s1|] eqn:E; [|discriminate]. apply (IH s1); [|exact H]. eapply step_timely; eauto.
  Qed.

  (** turns of the event loop, the time between two tries apart *)
  Notation turn := (turn timeout).
  Notation turns := (turns timeout).
  Lemma run_app a b s : run s (a ++ b) = match run s a with None => None | Some s' => run s' b end.
  Proof. revert s. induction a as [|o a IH]; intros s; [reflexivity|]. cbn [app Conn_Model.run]. destruct (step s o); [apply IH|reflexivity]. Qed.
  Lemma one_turn s n r :
    inv s -> timely s -> retry_connect = true -> retry_socket = true -> get n (remotes s) = Some r -> r_conn r = false ->
    exists s', run s turn = Some s' /\ inv s' /\ timely s' /\
    let k := get_or n 0 (retries s) in
    if max_retry <=? k
    then exists q, next_sock s <= q /\ get n (remotes s') = Some (with_sock (Some q) false r)
    else get n (remotes s') = Some r /\ get_or n 0 (retries s') = S k.
  Proof.
    intros Hi Ht Hc Hs Hr Hn. set (s1 := with_time (now s + timeout) (next_check s) s).
    destruct (check_inv s1 Hi) as (s2 & E & Hi2 & _ & _ & Er).
    assert (run s turn = Some (maintain false s2)) as Hrun.
    { unfold Conn_Spec.turn. cbn [Conn_Model.run Conn_Model.step]. fold s1. rewrite E. reflexivity. }
    assert (retries s2 = retries s /\ next_sock s2 = next_sock s) as [E1 E2].
    { clear -E. change (retries s) with (retries s1). change (next_sock s) with (next_sock s1). clearbody s1. unfold check_conns in E.
      destruct (same_set _ _); [injection E as <-; auto|]. destruct (conns_changed _ _) as [x|] eqn:X; [|discriminate]. injection E as <-. prj.
      revert X. match goal with |- conns_changed ?i ?y = _ -> _ => change (retries s1) with (retries y); change (next_sock s1) with (next_sock y); generalize i y end.
      clear. induction l as [|i l IH]; intros y X; cbn [conns_changed] in X; [injection X as <-; auto|]. destruct (get i (remotes y)) as [r|]; [|discriminate].
      apply IH in X. destruct X as [-> ->]. generalize (map fst (filter (fun x : nat * remote => addr_eqb (r_ha (snd x)) (r_ha r) && negb (fst x =? i)) (remotes y))).
      intros os. clear. revert y. induction os as [|o os IH]; intros y; [auto|]. cbn [fold_left]. destruct (IH (forget o y)) as [-> ->].
      unfold forget. destruct (get o (remotes y)); auto. }
    assert (get n (remotes s2) = Some r) as Hr2.
    { rewrite Er. unfold looked. prj. rewrite (get_map (fun r => fst (look r))). change (remotes s1) with (remotes s). rewrite Hr. cbn [option_map].
      unfold look. rewrite Hn. reflexivity. }
    exists (maintain false s2). split; [exact Hrun|]. split; [now apply maintain_inv|].
    assert (timely s1) as Ht1 by (unfold timely, s1 in *; prj; lia). pose proof (clock_check _ _ E) as [N1 N2].
    split; [apply timely_maintain; unfold timely in *; rewrite N1, N2; exact Ht1|]. cbv zeta.
    pose proof (maintain_retry false s2 n r Hi2 Hc Hs) as M. cbv zeta in M. rewrite E1, E2 in M.
    assert (next_check s2 <= now s2) as Hd. { rewrite N1, N2. unfold s1, timely in *. prj. lia. }
    specialize (M (or_intror Hd) Hr2 Hn). destruct (max_retry <=? _); [|exact M]. destruct M as (q & Q1 & Q2 & _). eauto.
  Qed.
  Lemma same_socket j s n r :
    inv s -> timely s -> retry_connect = true -> retry_socket = true -> get n (remotes s) = Some r -> r_conn r = false ->
    get_or n 0 (retries s) + j <= max_retry ->
    exists s', run s (turns j) = Some s' /\ inv s' /\ timely s' /\ get n (remotes s') = Some r /\ get_or n 0 (retries s') = get_or n 0 (retries s) + j.
  Proof.
    revert s. induction j as [|j IH]; intros s Hi Ht Hc Hs Hr Hn Hk; [exists s; cbn; rewrite Nat.add_0_r; auto|].
    destruct (one_turn s n r Hi Ht Hc Hs Hr Hn) as (s1 & E & Hi1 & Ht1 & M). cbv zeta in M.
    destruct (Nat.leb_spec max_retry (get_or n 0 (retries s))) as [L|L]; [lia|]. destruct M as [M1 M2].
    destruct (IH s1 Hi1 Ht1 Hc Hs M1 Hn) as (s2 & F & A & B & C & D); [lia|]. exists s2. cbn [Conn_Spec.turns]. rewrite run_app, E. split; [exact F|].
    split; [exact A|]. split; [exact B|]. split; [exact C|]. lia.
  Qed.
  Lemma new_socket j s n r :
    inv s -> timely s -> retry_connect = true -> retry_socket = true -> get n (remotes s) = Some r -> r_conn r = false ->
    get_or n 0 (retries s) + j = max_retry ->
    exists s' q, run s (turns j ++ turn) = Some s' /\ get n (remotes s') = Some (with_sock (Some q) false r) /\ r_sock r <> Some q.
  Proof.
    intros Hi Ht Hc Hs Hr Hn Hk. destruct (same_socket j s n r Hi Ht Hc Hs Hr Hn) as (s1 & E & Hi1 & Ht1 & G & K); [lia|].
    destruct (one_turn s1 n r Hi1 Ht1 Hc Hs G Hn) as (s2 & E2 & _ & _ & M). cbv zeta in M. rewrite K, Hk, Nat.leb_refl in M.
    destruct M as (q & Q1 & Q2). exists s2, q. rewrite run_app, E. split; [exact E2|]. split; [exact Q2|].
    destruct (proj1 (proj2 (proj2 (proj2 Hi1))) n r G) as (_ & _ & _ & k & -> & L & _). intros [= ->]. lia.
  Qed.

  (** * Without trying again *)
  Lemma none_missing s : (forall n a k, get n (registry s) = Some a -> n <> self -> get n (keys s) = Some k -> exists r, get n (remotes s) = Some r) -> inv s ->
    forall m, In m (missing s) -> get (fst m) (remotes s) = None /\ get (fst m) (keys s) = None.
  Proof.
    intros Ha Hi [n a] H. destruct (missing_ok s n a Hi H) as (A & B & C). cbn [fst]. split; [assumption|].
    destruct (get n (keys s)) as [k|] eqn:E; [|reflexivity]. destruct (Ha n a k B A E) as (r & Hr). congruence.
  Qed.
  Lemma connects_none m s : (forall x, In x m -> get (fst x) (remotes s) = None /\ get (fst x) (keys s) = None) -> connect_missing m s = s.
  Proof.
    induction m as [|x m IH]; intros H; [reflexivity|]. cbn. destruct (H x (or_introl eq_refl)) as [A B]. unfold connect at 2. rewrite A, B. apply IH.
    intros y Hy. apply H. now right.
  Qed.
  Definition settled (s : state) : Prop :=
    forall n a k, get n (registry s) = Some a -> n <> self -> get n (keys s) = Some k -> exists r, get n (remotes s) = Some r.
  Lemma idle_step s o s' : retry_connect = false -> idle o -> inv s -> settled s -> step s o = Some s' ->
    inv s' /\ settled s' /\ acts s' = acts s /\ (forall n r, get n (remotes s) = Some r -> r_conn r = false ->
      exists r', get n (remotes s') = Some r' /\ r_conn r' = false).
  Proof.
    intros Hc Ho Hi Hs H. assert (pool_step s o) as Hp by (destruct o; try destruct Ho; exact Logic.I).
    destruct (step_inv s o Hi Hp) as (s1 & E & Hi'). assert (s1 = s') as -> by congruence. split; [exact Hi'|].
    destruct o; try (destruct Ho; fail); cbn [Conn_Model.step] in H.
    - destruct (check_inv s Hi) as (s2 & E2 & _ & A & B & C). assert (s2 = s') as -> by congruence. split; [|split].
      + unfold settled. rewrite A, B, C. intros n a k H1 H2 H3. destruct (Hs n a k H1 H2 H3) as (r & Hr). unfold looked. prj.
        rewrite (get_map (fun r => fst (look r))), Hr. eexists. reflexivity.
      + clear -H. unfold check_conns in H. destruct (same_set _ _); [injection H as <-; reflexivity|]. destruct (conns_changed _ _) as [x|] eqn:X; [|discriminate].
        injection H as <-. change (acts (report (minus (connecteds (remotes s)) (conns s)) (minus (conns s) (connecteds (remotes s))) x)) with (acts x). revert X.
        match goal with |- conns_changed ?i ?y = _ -> _ => change (acts s) with (acts y); generalize i y end. clear.
        induction l as [|i l IH]; intros y X; cbn [conns_changed] in X; [injection X as <-; auto|]. destruct (get i (remotes y)) as [r|]; [|discriminate].
        apply IH in X. rewrite X. generalize (map fst (filter (fun x : nat * remote => addr_eqb (r_ha (snd x)) (r_ha r) && negb (fst x =? i)) (remotes y))).
        intros os. clear. revert y. induction os as [|o os IH]; intros y; [auto|]. cbn [fold_left]. rewrite IH. unfold forget. destruct (get o (remotes y)); auto.
      + intros n r Hr Hn. rewrite C. unfold looked. prj. rewrite (get_map (fun r => fst (look r))), Hr. cbn [option_map]. eexists. split; [reflexivity|].
        unfold look. rewrite Hn. exact Hn.
    - injection H as <-. unfold Conn_Model.maintain. destruct (_ && _); [split; [exact Hs|split; [reflexivity|eauto]]|]. cbv zeta. unfold Conn_Model.retry_all. rewrite Hc.
      set (s0 := with_time _ _ s). rewrite connects_none; [split; [exact Hs|split; [reflexivity|eauto]]|]. apply none_missing; [exact Hs|exact Hi].
    - injection H as <-. destruct (get n (remotes s)) as [r|] eqn:Er; [|split; [exact Hs|split; [reflexivity|eauto]]].
      destruct (r_sock r) eqn:Es; [|split; [exact Hs|split; [reflexivity|eauto]]]. split; [|split; [reflexivity|]].
      + intros m a k H1 H2 H3. destruct (Hs m a k H1 H2 H3) as (x & Hx). prj. rewrite get_set. destruct (m =? n); eauto.
      + intros m x Hx Hn. prj. rewrite get_set. destruct (Nat.eqb_spec m n) as [-> |]; [|eauto]. eexists. split; [reflexivity|]. cbn. congruence.
    - injection H as <-. split; [exact Hs|split; [reflexivity|eauto]].
  Qed.
  Lemma idle_run os s s' : retry_connect = false -> (forall o, In o os -> idle o) -> inv s -> settled s -> run s os = Some s' ->
    acts s' = acts s /\ (forall n r, get n (remotes s) = Some r -> r_conn r = false -> exists r', get n (remotes s') = Some r' /\ r_conn r' = false).
  Proof.
    intros Hc. revert s. induction os as [|o os IH]; intros s Ho Hi Hs H; cbn [Conn_Model.run] in H; [injection H as <-; eauto|].
    destruct (step s o) as [s1|] eqn:E; [|discriminate]. destruct (idle_step s o s1 Hc (Ho o (or_introl eq_refl)) Hi Hs E) as (A & B & C & D).
    destruct (IH s1 (fun x Hx => Ho x (or_intror Hx)) A B H) as [F G]. split; [congruence|]. intros n r Hr Hn. destruct (D n r Hr Hn) as (r1 & H1 & H2). eauto.
  Qed.

  (** * Between two looks *)
  Lemma unseen_run os : forall s s', (forall o, In o os -> unseen o) -> (forall n r, get n (remotes s) = Some r -> r_sock r <> None) -> run s os = Some s' ->
    by_key s' = by_key s /\ (forall n, get n (remotes s) = None -> get n (remotes s') = None) /\
    forall n r, get n (remotes s) = Some r -> exists r', get n (remotes s') = Some r' /\ r_sock r' = r_sock r /\ r_evs r' = r_evs r ++ told n os /\
      (r_conn r' = true <-> r_conn r = true \/ exists k b, In (Received k b) os /\ (retry_connect = false \/ b = true) /\ get k (by_key s) = Some n).
  Proof.
    induction os as [|o os IH]; intros s s' Ho Hsock H; cbn [Conn_Model.run] in H.
    - injection H as <-. split; [reflexivity|]. split; [auto|]. intros n r Hr. exists r. cbn [told flat_map]. rewrite app_nil_r. split; [assumption|]. split; [reflexivity|]. split; [reflexivity|].
      split; [auto|]. intros [Hc|(k & b & [] & _)]. exact Hc.
    - destruct (step s o) as [s1|] eqn:E; [|discriminate].
      assert (by_key s1 = by_key s /\ (forall n, get n (remotes s) = None -> get n (remotes s1) = None) /\
              forall n r, get n (remotes s) = Some r -> exists r', get n (remotes s1) = Some r' /\ r_sock r' = r_sock r /\ r_evs r' = r_evs r ++ told n [o] /\
                (r_conn r' = true <-> r_conn r = true \/ exists k b, o = Received k b /\ (retry_connect = false \/ b = true) /\ get k (by_key s) = Some n)) as (A & N & B).
      { assert (unseen o) as Hu by (apply Ho; now left). destruct o; try (destruct Hu; fail); cbn [Conn_Model.step] in E; injection E as <-.
        - destruct (negb retry_connect || pong) eqn:P.
          + assert (retry_connect = false \/ pong = true) as P' by (destruct retry_connect, pong; auto; discriminate).
            destruct (get k (by_key s)) as [m|] eqn:K.
            * destruct (get m (remotes s)) as [x|] eqn:M.
              -- prj. split; [reflexivity|]. split.
                 ++ intros n Hn. rewrite get_set. destruct (Nat.eqb_spec n m) as [-> |]; [congruence|assumption].
                 ++ intros n r Hr. rewrite get_set. cbn [told flat_map app]. rewrite app_nil_r. destruct (Nat.eqb_spec n m) as [-> |D].
                    ** rewrite M in Hr. injection Hr as <-. eexists. split; [reflexivity|]. cbn. split; [reflexivity|]. split; [reflexivity|]. split; [|reflexivity]. intros _. right. eauto.
                    ** exists r. split; [assumption|]. split; [reflexivity|]. split; [reflexivity|]. split; [auto|]. intros [Hc|(k' & b' & [= <- <-] & _ & G)]; [exact Hc|congruence].
              -- split; [reflexivity|]. split; [auto|]. intros n r Hr. exists r. cbn [told flat_map app]. rewrite app_nil_r. split; [assumption|]. split; [reflexivity|]. split; [reflexivity|].
                 split; [auto|]. intros [Hc|(k' & b' & [= <- <-] & _ & G)]; [exact Hc|congruence].
            * split; [reflexivity|]. split; [auto|]. intros n r Hr. exists r. cbn [told flat_map app]. rewrite app_nil_r. split; [assumption|]. split; [reflexivity|]. split; [reflexivity|].
              split; [auto|]. intros [Hc|(k' & b' & [= <- <-] & _ & G)]; [exact Hc|congruence].
          + split; [reflexivity|]. split; [auto|]. intros n r Hr. exists r. cbn [told flat_map app]. rewrite app_nil_r. split; [assumption|]. split; [reflexivity|]. split; [reflexivity|].
            split; [auto|]. intros [Hc|(k' & b' & [= <- <-] & Hx & G)]; [exact Hc|]. destruct retry_connect, pong; destruct Hx; discriminate.
        - destruct (get n (remotes s)) as [x|] eqn:M; [destruct (r_sock x) as [q|] eqn:Q|].
          + prj. split; [reflexivity|]. split.
            * intros m Hm. rewrite get_set. destruct (Nat.eqb_spec m n) as [-> |]; [congruence|assumption].
            * intros m r Hr. rewrite get_set. cbn [told flat_map app]. destruct (Nat.eqb_spec m n) as [-> |D].
              -- rewrite M in Hr. injection Hr as <-. rewrite Nat.eqb_refl. eexists. split; [reflexivity|]. cbn. split; [reflexivity|]. split; [reflexivity|].
                 split; [auto|]. intros [Hc|(k' & b' & [=] & _)]. exact Hc.
              -- assert ((n =? m) = false) as -> by (apply Nat.eqb_neq; congruence). cbn. rewrite app_nil_r. exists r. split; [assumption|]. split; [reflexivity|]. split; [reflexivity|].
                 split; [auto|]. intros [Hc|(k' & b' & [=] & _)]. exact Hc.
          + exfalso. exact (Hsock n x M Q).
          + split; [reflexivity|]. split; [auto|]. intros m r Hr. exists r. cbn [told flat_map app]. assert ((n =? m) = false) as -> by (apply Nat.eqb_neq; congruence). cbn. rewrite app_nil_r.
            split; [assumption|]. split; [reflexivity|]. split; [reflexivity|]. split; [auto|]. intros [Hc|(k' & b' & [=] & _)]. exact Hc.
        - prj. split; [reflexivity|]. split; [auto|]. intros n r Hr. exists r. cbn [told flat_map app]. rewrite app_nil_r. split; [assumption|]. split; [reflexivity|]. split; [reflexivity|].
          split; [auto|]. intros [Hc|(k' & b' & [=] & _)]. exact Hc. }
      destruct (IH s1 s' (fun x Hx => Ho x (or_intror Hx))) as (A' & N' & B'); [|exact H|].
      { intros n r Hr. destruct (get n (remotes s)) as [r0|] eqn:Er; [|rewrite (N n Er) in Hr; discriminate]. destruct (B n r0 Er) as (r1 & E1 & E2 & _).
        assert (r = r1) as -> by congruence. rewrite E2. eapply Hsock; eauto. }
      split; [congruence|]. split; [auto|]. intros n r Hr. destruct (B n r Hr) as (r1 & E1 & E2 & E3 & E4). destruct (B' n r1 E1) as (r2 & F1 & F2 & F3 & F4).
      exists r2. split; [assumption|]. split; [congruence|]. split.
      + rewrite F3, E3, <- app_assoc. f_equal. unfold told. cbn. now rewrite app_nil_r.
      + rewrite F4, E4, A. split.
        * intros [[Hc|(k & b & -> & Hx)]|(k & b & Hk & Hx)]; [auto| |]; right; exists k, b; (split; [cbn; auto|exact Hx]).
        * intros [Hc|(k & b & [-> |Hk] & Hx)]; [auto| |]; [left; right; eauto|right; eauto].
  Qed.
End Proofs.
