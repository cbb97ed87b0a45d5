(** C71: what a primary proposes.  Specification and theorems about Send_Model.v.

    Waiting requests of a ledger are proposed in the order in which they became ready, in batches of
    limited size, numbered one after the other; nothing that waits is lost; every ledger gets a batch
    at least once in an interval. *)
From Coq Require Import List Arith Bool Lia.
From Verif Require Import Base Dict Send_Model Send_Proofs.
Import ListNotations.

(** ** Specification *)
(** A replica at the start of a view, with nothing sent in it *)
Definition start (s : rep) : Prop :=
  NoDup (map fst (r_queues s)) /\ NoDup (map fst (r_fresh s)) /\ (forall l, NoDup (queue s l)) /\
  r_sent s = [] /\ r_batches s = [] /\ fst (r_last_ordered s) <= r_view s /\ r_last_pp s = snd (r_last_ordered s).
(** A replica in any state that is reached from there; catch-ups end in the view *)
Definition catches_up_in (s0 : rep) (es : list event) : Prop :=
  forall k, In (ECaught k) es -> (fst k = r_view s0 /\ r_last_pp s0 <= snd k) \/ k = (0, 0).
(** The primary may send: it takes part, has ordered what the view change left, and not too many
    batches are on their way *)
Definition may_send (c : config) (s : rep) : Prop :=
  r_primary s = true /\ r_participating s = true /\ (r_master s = true \/ r_reordered s = true) /\ r_waiting s = false /\
  r_cert s <= r_last_pp s /\ (0 < r_view s -> r_cert s < r_last_pp s -> r_cert s < snd (r_last_ordered s)) /\
  fst (r_last_ordered s) <= r_view s /\
  (fst (r_last_ordered s) = r_view s -> snd (r_last_ordered s) <= r_last_pp s /\
     forall m, in_flight c = Some m -> r_last_pp s - snd (r_last_ordered s) < m).
(** A ledger has enough requests, or requests that wait and no batch was made for a while *)
Definition ripe (c : config) (now l : nat) (s : rep) : Prop :=
  queue s l <> [] /\ (max_size c <= length (queue s l) \/ r_created s + max_wait c < now).
(** A ledger had no batch, ordered or made for its freshness, for longer than the interval *)
Definition outdated_at (c : config) (ts l : nat) (s : rep) : Prop :=
  exists u m, get l (r_fresh s) = Some (u, m) /\ u + interval c < ts /\ m + interval c < ts.

Section Theorems.
  Variable c : config.
  Variable verdict_of : list nat -> nat -> nat -> verdict.
  Notation run := (run c verdict_of).
  Notation send := (send_3pc_batch c verdict_of).

  Lemma start_inv s : start s -> inv (r_last_pp s) (r_view s) s.
  Proof.
    intros (A & B & C0 & D & E & F & G). split; [split; [split; assumption|assumption]|]. split; [|split; [right; congruence|reflexivity]].
    exists [], []. unfold flight. rewrite D, E, G, Nat.sub_diag. cbn. split; [reflexivity|]. split; [exact F|]. split; [lia|]. split; [reflexivity|]. split; [intros ? []|]. split; [intros ? []|constructor].
  Qed.
  Lemma catches_forall s0 es : catches_up_in s0 es -> Forall (in_view (r_view s0) (r_last_pp s0)) es.
  Proof. intros H. apply Forall_forall. intros e He. destruct e as [| | | | | |k|]; try exact Logic.I. exact (H k He). Qed.
  Lemma start_wfq s es s' o : start s -> run s es = (s', o) -> wfq s'.
  Proof. intros St E. eapply run_wf; [|exact E]. apply start_inv, St. Qed.
  Lemma due_ripe now l s : due c now l s = true <-> ripe c now l s.
  Proof.
    unfold due, ripe. destruct (queue s l) as [|a q]; [split; [discriminate|intros [X _]; congruence]|].
    rewrite orb_true_iff, Nat.leb_le, Nat.ltb_lt. split; [intros H; split; [discriminate|exact H]|intros [_ H]; exact H].
  Qed.

  (** ** What one call of the timer proposes *)
  (** Nothing if the replica may not send.  Else batches of the view, with the next numbers, one for
      a ledger, not larger than allowed, of different requests that are known, with times that do not
      go back; the batch takes the head of the queue, and the rest stays; requests of it that it does
      not contain are unknown or, on the master instance, were found to be ordered before; the batch
      says which of its requests are invalid when they are applied in order. *)
  Theorem C71_sent s0 es s o0 now ts s' o : start s0 -> run s0 es = (s, o0) -> send now ts s = (s', o) ->
    (~ may_send c s -> o = [] /\ s' = s) /\
    map p_seq o = seq (S (r_last_pp s)) (length o) /\ NoDup (map p_lid o) /\
    forall p, In p o ->
      p_view p = r_view s /\ NoDup (p_reqs p) /\ length (p_reqs p) <= max_size c /\ ts <= p_time p /\ (forall t, r_time s = Some t -> t <= p_time p) /\
      (exists d, queue s (p_lid p) = d ++ queue s' (p_lid p) /\ sub (p_reqs p) d /\
         (forall r, In r (p_reqs p) -> In r (r_known s)) /\
         (forall r, In r d -> In r (p_reqs p) \/ ~ In r (r_known s) \/ (r_master s = true /\ exists ap tm, verdict_of ap tm r = Malicious)) /\
         (queue s' (p_lid p) = [] \/ length (p_reqs p) = max_size c)) /\
      (if r_master s then exists ap, judge verdict_of ap (p_time p) (p_reqs p) 0 = Some (p_invalid p) else p_invalid p = []).
  Proof.
    intros St R E. pose proof (start_wfq _ _ _ _ St R) as W.
    destruct (can_send c s) eqn:Can.
    - split; [intros N; exfalso; apply N; apply can_send_spec, Can|].
      destruct (send_spec _ _ _ _ _ _ _ (proj1 W) Can E) as (s1 & E1 & N & _ & Eq & _).
      pose proof (sends_spec _ _ _ _ _ _ _ E1) as (_ & Ls & Sq & _ & V & _).
      assert (EL : length (targets c now ts s) = length o) by (rewrite <- Ls, map_length; reflexivity). rewrite EL in Sq.
      split; [exact Sq|]. split; [rewrite Ls; exact N|]. intros p Hp.
      destruct (sends_takes _ _ _ _ _ _ _ N E1 p Hp) as (d & Ed & Sd & Dr & Kn & Le & Q).
      destruct (sends_time _ _ _ _ _ _ _ E1 p Hp) as [T1 T2].
      split; [apply V, Hp|]. split.
      { eapply sub_nodup; [exact Sd|]. pose proof (proj2 W (p_lid p)) as Nd. rewrite Ed in Nd. apply (sub_nodup _ _ (sub_app_r d _) Nd). }
      split; [exact Le|]. split; [exact T1|]. split; [exact T2|]. split.
      + exists d. replace (queue s' (p_lid p)) with (queue s1 (p_lid p)) by (unfold queue; rewrite Eq; reflexivity). auto 10.
      + exact (sends_judged _ _ _ _ _ _ _ E1 p Hp).
    - rewrite send_not in E by exact Can. injection E as <- <-. split; [auto|]. split; [reflexivity|]. split; [constructor|]. intros p [].
  Qed.

  (** A ledger gets a batch if it is ripe or, on the master instance, outdated. *)
  Theorem C71_ready s0 es s o0 now ts s' o l : start s0 -> run s0 es = (s, o0) -> send now ts s = (s', o) -> may_send c s ->
    ripe c now l s \/ (update c = true /\ r_master s = true /\ outdated_at c ts l s) -> exists p, In p o /\ p_lid p = l.
  Proof.
    intros St R E May H. pose proof (start_wfq _ _ _ _ St R) as W. apply can_send_spec in May.
    destruct (send_spec _ _ _ _ _ _ _ (proj1 W) May E) as (s1 & E1 & N & _).
    pose proof (sends_spec _ _ _ _ _ _ _ E1) as (_ & Ls & _).
    assert (I : In l (targets c now ts s)).
    { destruct H as [H|(U & M & H)]; [|apply targets_stale; [apply W|exact U|exact M|exact H]].
      apply targets_due; [|apply due_ripe, H]. destruct H as [H _]. unfold queue in H. destruct (get l (r_queues s)) as [q|] eqn:G; [|congruence].
      apply get_in in G. apply (in_map fst) in G. exact G. }
    rewrite <- Ls in I. apply in_map_iff in I as (p & El & Hp). exists p. auto.
  Qed.
  (** And only then, or because a batch is needed after a view change and none else is sent. *)
  Theorem C71_only s0 es s o0 now ts s' o p : start s0 -> run s0 es = (s, o0) -> send now ts s = (s', o) -> In p o ->
    may_send c s /\
    (ripe c now (p_lid p) s \/ (update c = true /\ r_master s = true /\ outdated_at c ts (p_lid p) s) \/
     (r_needed s = true /\ o = [p] /\ p_lid p = DOMAIN)).
  Proof.
    intros St R E Hp. pose proof (start_wfq _ _ _ _ St R) as W.
    destruct (can_send c s) eqn:Can; [|rewrite send_not in E by exact Can; injection E as <- <-; destruct Hp].
    split; [apply can_send_spec, Can|].
    destruct (send_spec _ _ _ _ _ _ _ (proj1 W) Can E) as (s1 & E1 & N & _).
    pose proof (sends_spec _ _ _ _ _ _ _ E1) as (_ & Ls & _).
    assert (I : In (p_lid p) (targets c now ts s)) by (rewrite <- Ls; apply in_map, Hp).
    destruct (targets_in _ _ _ _ _ (proj1 W) I) as [[_ A]|[A|(A & B & C0 & D)]]; [left; apply due_ripe, A|right; left; exact A|].
    right. right. split; [exact A|]. split; [|exact B].
    assert (T : forall l, In l (map p_lid o) -> l = DOMAIN).
    { intros l Hl. rewrite Ls in Hl. destruct (targets_in _ _ _ _ _ (proj1 W) Hl) as [[X Y]|[(U & M & X)|(_ & X & _)]]; [|exfalso|exact X].
      - rewrite (C0 l X) in Y. discriminate.
      - apply (D (proj2 (andb_true_iff _ _) (conj U M)) l X). }
    rewrite <- Ls in N. clear - T N Hp. destruct o as [|a [|b o]]; [destruct Hp|destruct Hp as [->|[]]; reflexivity|].
    cbn [map] in *. inversion N as [|? ? N1 _]; subst. exfalso. apply N1. left. rewrite (T (p_lid a)), (T (p_lid b)); auto; cbn; auto.
  Qed.

  (** ** Requests are proposed in order *)
  (** As long as no batch is reverted, what was proposed of a ledger, followed by what waits, is a part
      of what waited at the start and became ready since, in that order. *)
  Theorem C71_order_partial s0 es s o l : start s0 -> (forall t, ~ In (ERevert t) es) -> run s0 es = (s, o) ->
    sub (proposed l o ++ queue s l) (queue s0 l ++ readied l es).
  Proof.
    intros St NR E. apply (run_proposed c verdict_of es s0 s o l); [apply start_inv, St| |exact E].
    apply Forall_forall. intros e He. destruct e; cbn [no_revert]; auto. exact (NR _ He).
  Qed.

  (** ** Requests are not lost *)
  (** A batch is settled when an event orders its number, here or as a catch-up shows elsewhere, and it
      is the newest batch sent with its number. *)
  Definition settled (so : rep * list pp) (e : event) (p : pp) : Prop := newest (snd so) p /\ settling (fst so) e p.
  (** A request that became ready waits, or is in a batch that is on its way, or in one that was
      settled, or it was freed, or, on the master instance, found to be ordered before. *)
  Theorem C71_not_lost s0 es s o l r ea eb : start s0 -> catches_up_in s0 es -> run s0 es = (s, o) ->
    es = ea ++ EReady l r :: eb -> In r (r_known (fst (run s0 ea))) ->
    In r (queue s l) \/
    (exists p, In p o /\ later (r_last_ordered s) (key p) = true /\ In p (r_batches s) /\ p_lid p = l /\ In r (p_reqs p)) \/
    (exists e1 e e2 p, es = e1 ++ e :: e2 /\ settled (run s0 e1) e p /\ p_lid p = l /\ In r (p_reqs p)) \/
    In (EFree r) es \/ (r_master s0 = true /\ exists ap tm, verdict_of ap tm r = Malicious).
  Proof.
    intros St Cu R E Kn. pose proof (start_inv _ St) as I0. pose proof (catches_forall _ _ Cu) as F.
    destruct (run s0 ea) as [sa oa] eqn:Ea. cbn [fst] in Kn.
    assert (Fa : Forall (in_view (r_view s0) (r_last_pp s0)) ea /\ Forall (in_view (r_view s0) (r_last_pp s0)) eb).
    { rewrite E in F. apply Forall_app in F as [F1 F2]. inversion F2; subst. auto. }
    destruct Fa as [Fa Fb].
    pose proof (run_inv c verdict_of _ _ _ _ _ _ I0 Fa Ea) as Ia.
    set (sr := with_queues (set l (add r (queue sa l)) (r_queues sa)) sa).
    assert (Er : step c verdict_of sa (EReady l r) = (sr, [])).
    { cbn [step]. assert (existsb (Nat.eqb r) (r_known sa) = true) as -> by (apply mem_in, Kn). reflexivity. }
    assert (Ir : inv (r_last_pp s0) (r_view s0) sr) by exact (step_inv c verdict_of _ _ sa (EReady l r) sr [] Ia Logic.I Er).
    pose proof R as R0. rewrite E in R. rewrite run_app, Ea in R. cbn [Send_Model.run] in R. rewrite Er in R. destruct (run sr eb) as [sb ob] eqn:Eb.
    injection R as R1 R2. cbn [app] in R2.
    assert (Hq : In r (queue sr l)). { unfold sr. rewrite queue_with_queues, Nat.eqb_refl. apply add_in. left. reflexivity. }
    assert (Mst : r_master sr = r_master s0).
    { change (r_master sa = r_master s0). clear - Ea I0 Fa. revert Ea I0 Fa. generalize (r_last_pp s0) (r_view s0). intros n0 v. revert s0 sa oa.
      induction ea as [|e es IH]; intros s0 sa oa; cbn [Send_Model.run]; [intros E; injection E as <- <-; reflexivity|].
      destruct (step c verdict_of s0 e) as [s1 o1] eqn:E1. destruct (run s1 es) as [s2 o2] eqn:E2. intros E I F. injection E as <- <-.
      inversion F as [|? ? F1 F2]; subst. rewrite (IH _ _ _ E2 (step_inv c verdict_of _ _ _ _ _ _ I F1 E1) F2).
      apply (step_static c verdict_of _ _ _ _ (proj1 (proj1 I)) E1). }
    assert (New : forall es1 s1 o1, run s0 es1 = (s1, o1) -> forall p, In p (r_sent s1) -> newest o1 p).
    { intros es1 s1 o1 E1 p Hp. apply (run_newest c verdict_of es1 s0 s1 o1 [] (proj1 I0) E1); [|exact Hp].
      destruct St as (_ & _ & _ & St & _). rewrite St. intros p' []. }
    destruct (run_held c verdict_of _ _ l r eb sr sb ob Ir Fb Eb Kn (or_introl Hq)) as [H|[H|[H|(e1 & e & e2 & p & X & Y1 & Y2 & Y3)]]].
    - subst sb. destruct H as [H|(p & H1 & H2 & H3)]; [auto|]. right. left. exists p.
      assert (Ib : inv (r_last_pp s0) (r_view s0) s) by (apply (run_inv c verdict_of _ _ _ _ _ _ I0 F R0)).
      destruct Ib as (_ & (bs & rest & FL) & _). pose proof (flight_in _ _ _ _ FL H1 H2) as Hb.
      destruct FL as (_ & _ & _ & _ & Bs & _). destruct (New _ _ _ R0 p (proj2 (Bs p Hb))) as (a & b & -> & _).
      split; [apply in_or_app; right; left; reflexivity|]. auto.
    - right. right. right. left. rewrite E. apply in_or_app. right. right. exact H.
    - right. right. right. right. unfold malicious in H. rewrite Mst in H. exact H.
    - right. right. left. exists (ea ++ EReady l r :: e1), e, e2, p. rewrite E, X. split; [rewrite <- app_assoc; reflexivity|].
      assert (Rn : run s0 (ea ++ EReady l r :: e1) = (fst (run sr e1), oa ++ snd (run sr e1))).
      { rewrite run_app, Ea. cbn [Send_Model.run]. rewrite Er. destruct (run sr e1). reflexivity. }
      unfold settled. rewrite Rn. cbn [fst snd]. split; [|exact Y3]. split; [|exact Y2]. exact (New _ _ _ Rn p Y1).
  Qed.

  (** ** Numbers *)
  (** As long as no batch is reverted, the numbers of the batches of the view increase. *)
  Theorem C71_numbers_partial s0 es s o : start s0 -> (forall t, ~ In (ERevert t) es) -> run s0 es = (s, o) ->
    increasing (r_last_pp s0) (map p_seq o) /\ forall p, In p o -> p_view p = r_view s0.
  Proof.
    intros St NR E. apply (run_increasing c verdict_of es s0 s o); [apply start_inv, St| |exact E].
    apply Forall_forall. intros e He. destruct e; cbn [no_revert]; auto. exact (NR _ He).
  Qed.

  (** ** Batches on their way *)
  (** There are never more than the limit and one for each ledger but one, whatever happens. *)
  Theorem C71_in_flight_partial s0 es s o L m : start s0 -> catches_up_in s0 es -> run s0 es = (s, o) ->
    (fst (r_last_ordered s0) = r_view s0 \/ r_cert s0 = snd (r_last_ordered s0)) -> in_flight c = Some m -> 0 < m ->
    In DOMAIN L -> incl (map fst (r_queues s0)) L -> incl (map fst (r_fresh s0)) L -> (forall l r, In (EReady l r) es -> In l L) ->
    r_last_pp s - snd (r_last_ordered s) < m + length L.
  Proof.
    intros St Cu R Io Fm Pm D Q F Er. enough (X : r_last_pp s - snd (r_last_ordered s) <= (m - 1) + length L) by lia.
    refine (run_bound c verdict_of _ _ L m es s0 s o (start_inv _ St) (catches_forall _ _ Cu) _ _ Io Fm _ R).
    - apply Forall_forall. intros e He. destruct e as [|l r| | | | | |]; cbn [ledgers_of]; intros x Hx; destruct Hx as [<-|[]] || destruct Hx. eapply Er, He.
    - split; [exact D|]. split; [exact Q|]. split; [exact F|]. destruct St as (_ & _ & _ & A & B & _). rewrite A, B. intros p [[]|[]].
    - destruct St as (_ & _ & _ & _ & _ & _ & G). lia.
  Qed.

  (** ** Freshness *)
  (** Two batches that are sent for the freshness of a ledger are more than an interval apart,
      whatever happens between. *)
  Theorem C71_fresh_apart s0 es s o now ts s1 o1 es2 s2 o2 l ts2 : start s0 -> run s0 es = (s, o) ->
    may_send c s -> update c = true -> r_master s = true -> outdated_at c ts l s -> send now ts s = (s1, o1) ->
    run s1 es2 = (s2, o2) -> outdated_at c ts2 l s2 -> ts + interval c < ts2.
  Proof.
    intros St R May U M Od E R2 (u2 & m2 & G2 & _ & L2). pose proof (start_wfq _ _ _ _ St R) as W.
    assert (W1 : wfq s1) by (eapply send_wf; eauto). destruct (run_marked _ _ _ _ _ _ _ _ _ W1 R2 G2) as (u1 & m1 & G1 & L1).
    apply can_send_spec in May. destruct (send_spec _ _ _ _ _ _ _ (proj1 W) May E) as (sx & _ & _ & _ & _ & _ & _ & _ & _ & _ & Fr & _).
    rewrite Fr, U, M in G1. cbn [andb] in G1. rewrite check_get in G1. destruct Od as (u & m & G & Lu & Lm). rewrite G in G1.
    cbn [option_map] in G1. unfold mark in G1. cbn [fst snd] in G1. assert (outdated (interval c) ts (u, m) = true) as X by (apply outdated_spec; lia).
    rewrite X in G1. injection G1 as _ <-. lia.
  Qed.
  (** Without reverts and catch-ups: when everything that was sent is ordered, every ledger was updated
      not longer than an interval before the last call that could send. *)
  Theorem C71_fresh_partial s0 ea now ts eb sa oa s o t0 : start s0 ->
    (forall l u m, get l (r_fresh s0) = Some (u, m) -> m <= u <= t0) ->
    (forall e, In e (ea ++ ESend now ts :: eb) -> match e with ERevert _ | ECaught _ => False | ESend _ t => t0 <= t | _ => True end) ->
    run s0 ea = (sa, oa) -> may_send c sa -> update c = true -> r_master sa = true ->
    run s0 (ea ++ ESend now ts :: eb) = (s, o) -> r_last_pp s = snd (r_last_ordered s) ->
    forall l u m, get l (r_fresh s) = Some (u, m) -> ts <= u + interval c.
  Proof.
    intros St Fr0 Cm Ra May U M R Eq l u m G. pose proof (start_inv _ St) as I0.
    assert (Cm' : Forall (calm t0) (ea ++ ESend now ts :: eb)).
    { apply Forall_forall. intros e He. specialize (Cm e He). destruct e; exact Cm. }
    apply Forall_app in Cm' as [Ca Cb]. inversion Cb as [|? ? C1 C2]; subst.
    assert (FL0 : flight s0 [] []).
    { destruct St as (_ & _ & _ & D & E & F & G'). unfold flight. rewrite D, E, G', Nat.sub_diag. cbn. split; [reflexivity|]. split; [exact F|]. split; [lia|]. split; [reflexivity|]. split; [intros ? []|]. split; [intros ? []|constructor]. }
    assert (FI0 : fresh_inv t0 [] s0).
    { destruct St as (_ & _ & _ & D & _). unfold fresh_inv. rewrite D. split; [intros ? []|]. split; [exact Logic.I|]. split; [intros ? []|].
      intros l' u' m' G'. specialize (Fr0 l' u' m' G'). split; [left; lia|]. split; [left; lia|]. split; [intros ? []|]. cbn. lia. }
    destruct (run_fresh_inv _ _ _ _ _ _ _ _ _ (proj1 I0) Ca FL0 FI0 Ra) as (b1 & r1 & FLa & FIa & _).
    rewrite run_app, Ra in R. cbn [Send_Model.run] in R. destruct (step c verdict_of sa (ESend now ts)) as [s1 o1] eqn:E1.
    destruct (run s1 eb) as [s2 o2] eqn:E2. injection R as <- _.
    pose proof (run_wf _ _ _ _ _ _ (proj1 I0) Ra) as Wa.
    destruct (step_fresh_inv _ _ _ _ _ _ _ _ _ (proj1 Wa) C1 FLa FIa E1) as (b2 & r2 & FL1 & FI1).
    assert (W1 : wfq s1) by (eapply step_wf; eauto).
    destruct (run_fresh_inv _ _ _ _ _ _ _ _ _ W1 C2 FL1 FI1 E2) as (b3 & r3 & FL2 & FI2 & Cv).
    cbn [step] in E1. apply can_send_spec in May. pose proof (Cv ts (send_covered _ _ _ _ _ _ _ (proj1 Wa) May U M E1)) as Cv2.
    assert (B3 : b3 = []).
    { destruct FL2 as (_ & _ & _ & Mp & _). rewrite Eq, Nat.sub_diag in Mp. destruct b3; [reflexivity|discriminate Mp]. }
    subst b3. destruct FI2 as (_ & _ & _ & I4). destruct (I4 l u m G) as (_ & _ & _ & Lm). cbn in Lm.
    destruct (Cv2 l u m G); lia.
  Qed.

  (** The monitor votes for a view change if and only if the node takes part (or waits for a view), and
      a ledger was not updated for as many intervals as are acceptable; it fails if there are no ledgers. *)
  Theorem C71_monitor synced waiting now f : 
    (check_votes c synced waiting now f = Some true <->
       (synced = true \/ waiting = true) /\ exists l u m, In (l, (u, m)) f /\ u + acceptable c * interval c <= now) /\
    (check_votes c synced waiting now f = None <-> (synced = true \/ waiting = true) /\ f = []).
  Proof.
    unfold check_votes, oldest. set (x := acceptable c * interval c). clearbody x.
    assert (Sy : negb synced && negb waiting = false <-> synced = true \/ waiting = true) by (destruct synced, waiting; cbn; intuition congruence).
    destruct (negb synced && negb waiting) eqn:Sn.
    { assert (N : ~ (synced = true \/ waiting = true)) by (intros H; apply Sy in H; discriminate).
      split; split; try discriminate; intros [H _]; contradiction. }
    assert (Y : synced = true \/ waiting = true) by (apply Sy; reflexivity). clear Sy Sn.
    destruct f as [|(l0, (u0, m0)) f]; cbn [map fst snd].
    { split; split; try discriminate; auto. intros (_ & l & u & m & [] & _). }
    split; [|split; [discriminate|intros [_ H]; discriminate H]].
    assert (Mn : forall ts t, In (fold_left Nat.min ts t) (t :: ts) /\ forall y, In y (t :: ts) -> fold_left Nat.min ts t <= y).
    { induction ts as [|a ts IH]; intros t; cbn [fold_left]; [split; [left; reflexivity|intros y [<-|[]]; lia]|].
      destruct (IH (Nat.min t a)) as [A B]. split.
      - destruct A as [A|A]; [|right; right; exact A]. rewrite <- A. destruct (Nat.min_spec t a) as [[_ ->]|[_ ->]]; [left|right; left]; reflexivity.
      - intros y H. pose proof (B _ (or_introl eq_refl)) as C0. destruct H as [<-|[<-|H]]; [lia|lia|apply B; right; exact H]. }
    destruct (Mn (map (fun y => fst (snd y)) f) u0) as [A B]. set (t := fold_left Nat.min (map (fun y => fst (snd y)) f) u0) in *. clearbody t.
    change u0 with (fst (snd (l0, (u0, m0)))) in A, B at 1.
    assert (A' : exists l u m, In (l, (u, m)) ((l0, (u0, m0)) :: f) /\ u = t).
    { destruct A as [A|A]; [exists l0, u0, m0; split; [left; reflexivity|exact A]|]. apply in_map_iff in A as ((l & u & m) & E & H). exists l, u, m. split; [right; exact H|exact E]. }
    split.
    - intros H. injection H as H. apply negb_true_iff, Nat.ltb_ge in H. split; [exact Y|]. destruct A' as (l & u & m & I & ->).
      exists l, t, m. split; [exact I|]. destruct (Nat.le_gt_cases t now); lia.
    - intros (_ & l & u & m & I & L). f_equal. apply negb_true_iff, Nat.ltb_ge.
      assert (t <= u). { apply B. destruct I as [E|I]; [injection E as <- <- <-; left; reflexivity|right; apply in_map_iff; exists (l, (u, m)); auto]. }
      lia.
  Qed.
End Theorems.

(** ** Where it does not hold *)
(** Requests of one ledger may wait as long as other ledgers have enough requests: the time of the last
    batch is that of any ledger.  A backup instance (on the master instance freshness helps), batches of
    two, a wait of one: whatever [n], after [n] calls at a distance that is not longer than the wait, all
    of which sent a batch that was ordered, the request still waits. *)
Definition slow : config := Config 2 1 None 5 true 3.
Definition wait_start : rep :=
  Rep false true true true false 0 0 0 (0, 0) [(0, [7]); (1, [])] [] 0 false None None [7] [] [] [].
Definition busy (i : nat) : list event :=
  let a := 10 + 2 * i in let b := 11 + 2 * i in
  [EKnow a; EKnow b; EReady 1 a; EReady 1 b; ESend (S i) (S i); EOrder []].
Definition all_valid (_ : list nat) (_ _ : nat) : verdict := Valid.
Definition waiting_state i lo tm kn q sent bt cr : rep := Rep false true true true false 0 0 i (0, lo) [(0, [7]); (1, q)] [] cr false tm None kn [] sent bt.
Lemma busy_send i tm kn a b sent bt : In a kn -> In b kn -> let s := waiting_state i i tm kn [a; b] sent bt i in
  exists t p, send_3pc_batch slow all_valid (S i) (S i) s =
    (waiting_state (S i) i (Some t) kn [] (p :: filter (fun p' => negb (same p p')) sent) (p :: bt) (S i), [p]) /\ key p = (0, S i) /\ p_lid p = 1.
Proof.
  intros Ia Ib s. assert (Can : can_send slow s = true).
  { apply can_send_spec. cbn. repeat split; auto; try lia. discriminate. }
  apply mem_in in Ia, Ib.
  assert (D0 : due slow (S i) 0 s = false) by (unfold due; cbn; apply Nat.leb_gt; lia).
  unfold send_3pc_batch. rewrite Can. cbn [negb]. change (map fst (r_queues s)) with [0; 1]. cbn [requests_loop]. rewrite D0.
  change (due slow (S i) 1 s) with true. cbn [requests_loop app].
  destruct (send_batch slow all_valid 1 (S i) s) as [s1 p] eqn:E.
  assert (X : exists t, s1 = waiting_state (S i) i (Some t) kn [] (p :: filter (fun p' => negb (same p p')) sent) (p :: bt) i /\ key p = (0, S i) /\ p_lid p = 1).
  { unfold send_batch in E. set (t := batch_time 1 (S i) s) in E. clearbody t. change (queue s 1) with [a; b] in E. change (r_master s) with false in E.
    change (r_known s) with kn in E. cbn [consume length app] in E. change (0 <? max_size slow) with true in E. change (1 <? max_size slow) with true in E. cbn iota in E.
    rewrite Ia, Ib in E. injection E as <- <-. exists t. repeat split. }
  destruct X as (t & -> & K & El). change (update slow && r_master (waiting_state (S i) i (Some t) kn [] (p :: filter (fun p' => negb (same p p')) sent) (p :: bt) i)) with false.
  cbn iota. exists t, p. split; [reflexivity|]. auto.
Qed.
Lemma busy_round i tm kn sent bt : exists s' p tm' kn' sent' bt', 
  run slow all_valid (waiting_state i i tm kn [] sent bt i) (busy i) = (s', [p]) /\ p_lid p = 1 /\ s' = waiting_state (S i) (S i) tm' kn' [] sent' bt' (S i).
Proof.
  unfold busy. set (a := 10 + 2 * i). set (b := 11 + 2 * i).
  assert (Ne : b =? a = false) by (apply Nat.eqb_neq; unfold a, b; lia). clearbody a b.
  set (kn2 := b :: a :: kn). assert (Ia : In a kn2) by (right; left; reflexivity). assert (Ib : In b kn2) by (left; reflexivity).
  assert (E1 : step slow all_valid (waiting_state i i tm kn2 [] sent bt i) (EReady 1 a) = (waiting_state i i tm kn2 [a] sent bt i, [])).
  { apply mem_in in Ia. cbn [step]. change (r_known (waiting_state i i tm kn2 [] sent bt i)) with kn2. rewrite Ia. reflexivity. }
  assert (E2 : step slow all_valid (waiting_state i i tm kn2 [a] sent bt i) (EReady 1 b) = (waiting_state i i tm kn2 [a; b] sent bt i, [])).
  { apply mem_in in Ib. cbn [step]. change (r_known (waiting_state i i tm kn2 [a] sent bt i)) with kn2. rewrite Ib. 
    change (queue (waiting_state i i tm kn2 [a] sent bt i) 1) with [a]. unfold add. cbn [existsb]. rewrite Ne. reflexivity. }
  destruct (busy_send i tm kn2 a b sent bt Ia Ib) as (t & p & E3 & K & El).
  set (s3 := waiting_state (S i) i (Some t) kn2 [] (p :: filter (fun p' => negb (same p p')) sent) (p :: bt) (S i)) in E3.
  assert (E4 : order [] s3 = waiting_state (S i) (S i) (Some t) kn2 [] (p :: filter (fun p' => negb (same p p')) sent) (p :: bt) (S i)).
  { unfold order. change (r_view s3, S (snd (r_last_ordered s3))) with (0, S i). unfold get_sent. cbn [r_sent s3 waiting_state find].
    unfold key in K. injection K as K1 K2. rewrite K1, K2. cbn [fst snd]. rewrite !Nat.eqb_refl. cbn [andb]. rewrite El. unfold discard_reqs. rewrite El.
    change (queue (with_ordered (0, S i) _) 1) with (@nil nat).
    assert (N : forall rs, fold_left (fun q r => os_discard r q) rs [] = []) by (induction rs; [reflexivity|exact IHrs]). rewrite N.
    unfold with_queues, with_ordered. cbn [fst snd r_last_pp s3 waiting_state]. unfold s3, waiting_state. cbn [with_fresh r_last_pp snd]. rewrite Nat.max_id. reflexivity. }
  eexists. exists p. do 4 eexists. split; [|split; [|reflexivity]].
  cbn [run].
  change (step slow all_valid (waiting_state i i tm kn [] sent bt i) (EKnow a)) with (waiting_state i i tm (a :: kn) [] sent bt i, @nil pp). cbn iota.
  change (step slow all_valid (waiting_state i i tm (a :: kn) [] sent bt i) (EKnow b)) with (waiting_state i i tm kn2 [] sent bt i, @nil pp). cbn iota.
  rewrite E1, E2. cbn [step]. rewrite E3, E4. reflexivity. exact El.
Qed.
(** the calls: how many, and when *)
Definition calls (es : list event) : list nat := flat_map (fun e => match e with ESend now _ => [now] | _ => [] end) es.
Theorem C71_wait_refuted n : exists es s o, start wait_start /\ run slow all_valid wait_start es = (s, o) /\
  calls es = seq 1 n /\ length o = n /\ snd (r_last_ordered s) = n /\ (forall p, In p o -> p_lid p <> 0) /\ queue s 0 = [7] /\ In 7 (r_known wait_start).
Proof.
  assert (St : start wait_start).
  { split; [repeat constructor; cbn; intuition congruence|]. split; [constructor|]. split.
    - intros l. unfold queue. cbn. destruct l as [|[|l]]; cbn; repeat constructor; intros [].
    - repeat split; auto. }
  assert (Main : exists s o tm kn sent bt, run slow all_valid wait_start (flat_map busy (seq 0 n)) = (s, o) /\
    s = waiting_state n n tm kn [] sent bt n /\ length o = n /\ forall p, In p o -> p_lid p = 1).
  { induction n as [|n IH]; [exists wait_start, [], None, [7], [], []; split; [reflexivity|]; split; [reflexivity|]; split; [reflexivity|intros ? []]|].
    destruct IH as (s & o & tm & kn & sent & bt & R & -> & L & Al). destruct (busy_round n tm kn sent bt) as (s' & p & tm' & kn' & sent' & bt' & R' & Lp & E').
    exists s', (o ++ [p]), tm', kn', sent', bt'. split; [|split; [exact E'|split; [rewrite app_length, L; cbn; lia|intros p' Hp; apply in_app_or in Hp as [Hp|[<-|[]]]; auto]]].
    rewrite seq_S, flat_map_app, run_app, R. cbn [flat_map Nat.add]. rewrite app_nil_r, R'. reflexivity. }
  destruct Main as (s & o & tm & kn & sent & bt & R & Es & L & Al). exists (flat_map busy (seq 0 n)), s, o.
  assert (Q : queue s 0 = [7]) by (rewrite Es; reflexivity).
  split; [exact St|]. split; [exact R|]. split.
  { clear. rewrite <- seq_shift. induction (seq 0 n) as [|i l IH]; [reflexivity|]. cbn [flat_map map busy app calls]. f_equal. exact IH. }
  split; [exact L|]. split; [rewrite Es; reflexivity|]. split; [|split; [exact Q|left; reflexivity]].
  intros p Hp El. rewrite (Al p Hp) in El. discriminate.
Qed.

(** A replica of the master instance with two ledgers; request 9 is invalid, 8 was ordered before *)
Definition cf : config := Config 2 3 (Some 2) 10 true 3.
Definition judge_of (_ : list nat) (_ r : nat) : verdict := match r with 9 => Invalid | 8 => Malicious | _ => Valid end.
Definition first : rep :=
  Rep true true true true false 0 0 0 (0, 0) [(0, []); (1, [])] [(0, (1, 1)); (1, (1, 1))] 0 false None None [] [] [] [].
Lemma first_start : start first.
Proof.
  split; [repeat constructor; cbn; intuition congruence|]. split; [repeat constructor; cbn; intuition congruence|]. split.
  - intros l. unfold queue. cbn. destruct l as [|[|l]]; cbn; repeat constructor; intros [].
  - repeat split; auto.
Qed.
Definition ready (l : nat) (rs : list nat) : list event := flat_map (fun r => [EKnow r; EReady l r]) rs.

(** The limit is checked once for all ledgers: with one batch allowed, two are on their way. *)
Definition one : config := Config 2 3 (Some 1) 10 true 3.
Theorem C71_in_flight_refuted : exists es s o, run one judge_of first es = (s, o) /\ in_flight one = Some 1 /\
  1 < length (filter (fun p => later (r_last_ordered s) (key p)) (r_batches s)).
Proof. exists (ready 0 [5] ++ ready 1 [6] ++ [ESend 4 4]). do 2 eexists. split; [vm_compute; reflexivity|]. split; [reflexivity|]. vm_compute. lia. Qed.

(** A primary that starts and ends a catch-up that brings nothing proposes another batch with a number
    that it has used in the view. *)
Theorem C71_numbers_refuted : exists es s o p p', catches_up_in first es /\ run cf judge_of first es = (s, o) /\
  In p o /\ In p' o /\ key p = key p' /\ p_reqs p <> p_reqs p'.
Proof.
  exists (ready 1 [5] ++ [ESend 4 4; ERevert None; ECaught (0, 0)] ++ ready 1 [6] ++ [ESend 8 8]). do 2 eexists.
  exists (PP 0 1 4 1 [5] []), (PP 0 1 8 1 [5; 6] []). split.
  - intros k H. cbn in H. right. intuition congruence.
  - split; [vm_compute; reflexivity|]. cbn. repeat split; auto. discriminate.
Qed.
(** And in another order: the batch that was made last is put back first. *)
Theorem C71_order_refuted : exists es s o, catches_up_in first es /\ run cf judge_of first es = (s, o) /\
  readied 1 es = [5; 6; 7] /\ map p_reqs o = [[5; 6]; [7]; [7; 5]] /\ queue s 1 = [6].
Proof.
  exists (ready 1 [5; 6; 7] ++ [ESend 4 4; ESend 8 8; ERevert None; ECaught (0, 0); ESend 9 9]). do 2 eexists. split.
  - intros k H. cbn in H. right. intuition congruence.
  - split; [vm_compute; reflexivity|]. vm_compute. auto.
Qed.
(** A batch that was sent for the freshness of a ledger and reverted is not sent again at the next call:
    nothing is on its way, the ledger is outdated, and no batch is sent. *)
Theorem C71_fresh_refuted : exists es now ts s o s' , catches_up_in first es /\ run cf judge_of first es = (s, o) /\
  may_send cf s /\ r_last_pp s = snd (r_last_ordered s) /\ (exists u m, get 0 (r_fresh s) = Some (u, m) /\ u + interval cf < ts) /\
  send_3pc_batch cf judge_of now ts s = (s', []).
Proof.
  exists [ESend 12 12; ERevert None; ECaught (0, 0)], 22, 22. do 3 eexists. split; [intros k H; cbn in H; right; intuition congruence|].
  split; [vm_compute; reflexivity|]. split; [apply can_send_spec; vm_compute; reflexivity|]. split; [reflexivity|].
  split; [exists 1, 12; split; [reflexivity|vm_compute; lia]|]. vm_compute. reflexivity.
Qed.

(** ** Examples *)
(** Requests 5 to 9 become ready; batches of two are sent, 8 is left out, 9 is marked invalid; the
    second is ordered after the first; ledger 0 gets an empty batch when it is outdated. *)
Definition story : list event :=
  ready 1 [5; 8; 9; 6] ++ [ESend 4 4; EOrder []; ESend 8 8; EOrder []; ESend 12 12; EOrder []; EOrder []].
Example C71_story : exists s, run cf judge_of first story =
    (s, [PP 0 1 4 1 [5; 9] [1]; PP 0 2 8 1 [6] []; PP 0 3 12 0 [] []]) /\
  r_last_ordered s = (0, 3) /\ r_fresh s = [(0, (12, 12)); (1, (8, 1))] /\ queue s 1 = [].
Proof. eexists. split; [vm_compute; reflexivity|]. vm_compute. auto. Qed.
Example C71_sent_example : exists s o0, run cf judge_of first (ready 1 [5; 8; 9; 6]) = (s, o0) /\ may_send cf s /\ ripe cf 4 1 s /\
  exists s' p, send_3pc_batch cf judge_of 4 4 s = (s', [p]) /\ judge judge_of [] 4 (p_reqs p) 0 = Some [1] /\ queue s' 1 = [6].
Proof.
  do 2 eexists. split; [vm_compute; reflexivity|]. split; [apply can_send_spec; vm_compute; reflexivity|].
  split; [split; [vm_compute; discriminate|left; vm_compute; lia]|]. do 2 eexists. split; [vm_compute; reflexivity|]. vm_compute. auto.
Qed.
Example C71_order_example : sub (proposed 1 [PP 0 1 4 1 [5; 9] [1]; PP 0 2 8 1 [6] []] ++ []) ([] ++ readied 1 story).
Proof. vm_compute. repeat constructor. Qed.
(** Batches 1 and 2 are on their way; 1 is ordered, 2 reverted; then a catch-up shows that it was ordered. *)
Example C71_not_lost_example : let es := ready 1 [5; 9; 6] ++ [ESend 4 4; ESend 8 8; EOrder []; ERevert None; ECaught (0, 2)] in
  catches_up_in first es /\ (exists s, run cf judge_of first es = (s, [PP 0 1 4 1 [5; 9] [1]; PP 0 2 8 1 [6] []]) /\ queue s 1 = []) /\
  (exists e1 e e2, es = e1 ++ e :: e2 /\ settled (run cf judge_of first e1) e (PP 0 2 8 1 [6] [])).
Proof.
  cbv zeta. split; [|split].
  { intros k H. cbn in H. left. assert (E : k = (0, 2)) by intuition congruence. rewrite E. cbn. lia. }
  { eexists. split; [vm_compute; reflexivity|]. reflexivity. }
  exists (ready 1 [5; 9; 6] ++ [ESend 4 4; ESend 8 8; EOrder []; ERevert None]), (ECaught (0, 2)), []. split; [reflexivity|].
  split; [|vm_compute; auto]. exists [PP 0 1 4 1 [5; 9] [1]], []. split; [vm_compute; reflexivity|intros ? []].
Qed.
Example C71_in_flight_example : exists s o, run one judge_of first (ready 0 [5] ++ ready 1 [6] ++ [ESend 4 4]) = (s, o) /\
  r_last_pp s - snd (r_last_ordered s) = 2 /\ 2 < 1 + length [0; 1].
Proof. do 2 eexists. split; [vm_compute; reflexivity|]. vm_compute. auto. Qed.
Example C71_fresh_example : exists sa oa s o, run cf judge_of first [ESend 5 5] = (sa, oa) /\ may_send cf sa /\ outdated_at cf 12 0 sa /\
  run cf judge_of first ([ESend 5 5] ++ ESend 12 12 :: [EOrder []; EOrder []]) = (s, o) /\ length o = 2 /\ r_last_pp s = snd (r_last_ordered s) /\
  r_fresh s = [(0, (12, 12)); (1, (12, 12))].
Proof.
  do 4 eexists. split; [vm_compute; reflexivity|]. split; [apply can_send_spec; vm_compute; reflexivity|].
  split; [exists 1, 1; split; [reflexivity|vm_compute; lia]|]. split; [vm_compute; reflexivity|]. vm_compute. auto.
Qed.
Example C71_monitor_example : check_votes cf true false 30 [(0, (1, 1)); (1, (9, 9))] = Some false /\
  check_votes cf true false 31 [(0, (1, 1)); (1, (9, 9))] = Some true /\ check_votes cf true false 31 [] = None.
Proof. vm_compute. auto. Qed.

Print Assumptions C71_sent.
Print Assumptions C71_ready.
Print Assumptions C71_only.
Print Assumptions C71_order_partial.
Print Assumptions C71_not_lost.
Print Assumptions C71_numbers_partial.
Print Assumptions C71_in_flight_partial.
Print Assumptions C71_fresh_apart.
Print Assumptions C71_fresh_partial.
Print Assumptions C71_monitor.
Print Assumptions C71_wait_refuted.
Print Assumptions C71_in_flight_refuted.
Print Assumptions C71_numbers_refuted.
Print Assumptions C71_order_refuted.
Print Assumptions C71_fresh_refuted.
