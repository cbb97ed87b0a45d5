(** C30 and C56: the times of batches. *)
From Coq Require Import List Arith Bool Lia Sorted.
From Verif Require Import PpTime_Model PpTime_Spec.
Import ListNotations.

Section Times.
  Variables f dev : nat.
  Local Notation step := (step f dev).
  Local Notation run := (run f dev).
  Local Notation process := (process_preprepare dev).

  Definition lower (s : st) : nat := match s_last s with Some l => l | None => 0 end.

  Lemma run_app : forall a b s, run s (a ++ b) = let '(s1, o1) := run s a in let '(s2, o2) := run s1 b in (s2, o1 ++ o2).
  Proof.
    induction a as [|e a IH]; intros b s; cbn [app PpTime_Model.run]; [destruct (run s b); reflexivity|].
    destruct (step s e) as [s1 o1]. rewrite IH. destruct (run s1 a) as [s2 o2]. destruct (run s2 b) as [s3 o3]. rewrite app_assoc. reflexivity.
  Qed.
  Lemma created_app : forall a b, created (a ++ b) = created a ++ created b.
  Proof. intros a b. unfold created. apply flat_map_app. Qed.
  Lemma times_app : forall a b, times (a ++ b) = times a ++ times b.
  Proof. intros a b. unfold times. apply flat_map_app. Qed.
  Lemma sorted_app : forall a b, nondecreasing a -> nondecreasing b -> (forall x y, In x a -> In y b -> x <= y) -> nondecreasing (a ++ b).
  Proof.
    induction a as [|x a IH]; intros b A B H; [exact B|]. inversion A as [|? ? A1 A2]; subst. cbn [app]. constructor.
    - apply IH; [exact A1 | exact B | intros y z I J; apply H; [right; exact I | exact J]].
    - apply Forall_app. split; [exact A2|]. apply Forall_forall. intros y I. apply H; [left; reflexivity | exact I].
  Qed.

  (** *** one step *)
  Lemma accept_eff : forall s p r s' os, accept s p r = (s', os) ->
    s_primary s' = s_primary s /\ s_audit s' = s_audit s /\ s_domain s' = s_domain s /\ s_tss s' = s_tss s /\ s_stashed s' = s_stashed s /\ s_requested s' = s_requested s /\
    s_last s' = (if s_primary s then s_last s else Some (p_time p)) /\
    s_batches s' = (match r with AlreadyOrdered => s_batches s | _ => s_batches s ++ [(p_time p, p_ledger p)] end) /\
    os = [if s_primary s then OReordered p r else OAccepted p r].
  Proof. intros s p r s' os E. unfold accept in E. injection E as <- <-. cbn. repeat split. Qed.

  (** processing a PrePrepare: either nothing about times changes, or it is accepted *)
  Inductive processed (s : st) (p : pp) : st -> list out -> Prop :=
  | P_none s' os : s_last s' = s_last s -> s_batches s' = s_batches s -> os = [] \/ os = [OWrongTime p] -> processed s p s' os
  | P_accept r s' os : s_last s' = (if s_primary s then s_last s else Some (p_time p)) ->
      s_batches s' = (match r with AlreadyOrdered => s_batches s | _ => s_batches s ++ [(p_time p, p_ledger p)] end) ->
      os = [if s_primary s then OReordered p r else OAccepted p r] ->
      (r = Regular -> lower s <= p_time p) -> processed s p s' os.
  Lemma process_eff : forall s p sender fl s' os, process s p sender fl = (s', os) ->
    s_primary s' = s_primary s /\ s_audit s' = s_audit s /\ s_domain s' = s_domain s /\ processed s p s' os.
  Proof.
    intros s p sender fl s' os E. unfold process_preprepare in E.
    set (s1 := match tget (p_key p) (p_root p, sender) (s_tss s) with Some _ => s | None => _ end) in E.
    assert (S1 : s_primary s1 = s_primary s /\ s_audit s1 = s_audit s /\ s_domain s1 = s_domain s /\ s_last s1 = s_last s /\ s_batches s1 = s_batches s).
    { unfold s1. destruct (tget _ _ _); cbn; auto. }
    destruct S1 as (Q1 & Q2 & Q3 & Q4 & Q5).
    assert (NONE : forall o, o = [] \/ o = [OWrongTime p] -> s' = s1 /\ os = o -> s_primary s' = s_primary s /\ s_audit s' = s_audit s /\ s_domain s' = s_domain s /\ processed s p s' os).
    { intros o O [-> ->]. split; [exact Q1|]. split; [exact Q2|]. split; [exact Q3|]. apply P_none; assumption. }
    assert (ACC : forall r, (r = Regular -> lower s <= p_time p) -> accept s1 p r = (s', os) -> s_primary s' = s_primary s /\ s_audit s' = s_audit s /\ s_domain s' = s_domain s /\ processed s p s' os).
    { intros r H A. destruct (accept_eff s1 p r s' os A) as (A1 & A2 & A3 & _ & _ & _ & A4 & A5 & A6). rewrite A1, A2, A3. split; [exact Q1|]. split; [exact Q2|]. split; [exact Q3|].
      apply (P_accept s p r); rewrite <- ?Q1, <- ?Q4, <- ?Q5; assumption. }
    destruct (fl_valid fl); cbn [negb] in E; [|apply (NONE []); [left; reflexivity | injection E as <- <-; auto]].
    destruct (fl_ordered fl); [apply (ACC AlreadyOrdered); [discriminate | exact E]|].
    destruct (fl_pre fl); cbn [negb] in E; [|apply (NONE []); [left; reflexivity | injection E as <- <-; auto]].
    destruct (kin (p_key p) (s_have s1)); [apply (NONE []); [left; reflexivity | injection E as <- <-; auto]|].
    destruct (time_acceptable dev s1 p sender) as [r|] eqn:T.
    - destruct (fl_post fl); cbn [negb] in E; [|apply (NONE []); [left; reflexivity | injection E as <- <-; auto]].
      apply (ACC r); [|exact E]. intros ->. unfold time_acceptable in T.
      destruct (kin (p_key p) (s_requested s1)); [discriminate T|]. destruct (time_correct dev s1 p sender) eqn:TC; [|destruct (kget (p_key p) (s_stashed s1)) as [[[? ?] []]|]; discriminate T].
      unfold time_correct in TC. unfold lower. rewrite <- Q4. clear - TC. destruct (s_last s1) as [l|]; [|lia].
      destruct (Nat.eqb_spec l 0) as [Z|]; [lia|]. cbn [negb andb] in TC. destruct (Nat.ltb_spec (p_time p) l) as [|L]; [discriminate TC | exact L].
    - injection E as <- <-. split; [exact Q1|]. split; [exact Q2|]. split; [exact Q3|]. apply P_none; [exact Q4 | exact Q5 | right; reflexivity].
  Qed.
  Lemma processed_ext : forall s0 s p s' os, s_last s0 = s_last s -> s_batches s0 = s_batches s -> s_primary s0 = s_primary s -> processed s0 p s' os -> processed s p s' os.
  Proof.
    intros s0 s p s' os L B P D. destruct D as [s' os D1 D2 D3|r s' os D1 D2 D3 D4].
    - apply P_none; congruence || exact D3.
    - apply (P_accept s p r); [rewrite <- P, <- L; exact D1 | rewrite <- B; exact D2 | rewrite <- P; exact D3 | intros R; specialize (D4 R); unfold lower in *; rewrite <- L; exact D4].
  Qed.
  Lemma enqueue_eff : forall s k t sender fl s' os, enqueue_prepare f dev s k t sender fl = (s', os) ->
    s_primary s' = s_primary s /\ s_audit s' = s_audit s /\ s_domain s' = s_domain s /\ exists p, processed s p s' os.
  Proof.
    intros s k t sender fl s' os E. unfold enqueue_prepare in E. cbn [s_stashed] in E.
    destruct (kget k (s_stashed s)) as [[[p from] done]|].
    - destruct ((f <? _) && _ && negb done).
      + destruct (process_eff _ _ _ _ _ _ E) as (A & B & C & D). split; [exact A|]. split; [exact B|]. split; [exact C|]. exists p.
        refine (processed_ext _ s p s' os _ _ _ D); reflexivity.
      + injection E as <- <-. split; [reflexivity|]. split; [reflexivity|]. split; [reflexivity|]. exists p. apply P_none; [reflexivity | reflexivity | left; reflexivity].
    - injection E as <- <-. split; [reflexivity|]. split; [reflexivity|]. split; [reflexivity|]. exists (mkPP (0, 0) 0 0 0). apply P_none; [reflexivity | reflexivity | left; reflexivity].
  Qed.
  Lemma epoch_ge : forall last now, match last with Some l => l <= epoch_for_preprepare last now | None => True end.
  Proof. intros [l|] now; [|exact Logic.I]. cbn [epoch_for_preprepare]. destruct (Nat.eqb_spec l 0), (Nat.ltb_spec now l); cbn [negb andb]; lia. Qed.
  Lemma create_eff : forall s lid now k, exists tm, create_batch s lid now k =
    (mkSt (Some tm) (s_tss s) (s_stashed s) (s_waiting s) (s_requested s) (k :: s_have s) (s_batches s ++ [(tm, lid)]) (s_audit s) (s_domain s) (s_primary s), [OCreated tm]) /\ lower s <= tm.
  Proof.
    intros s lid now k. unfold create_batch, lower. eexists. split; [reflexivity|]. destruct (s_last s) as [l|]; [exact (epoch_ge (Some l) now) | lia].
  Qed.

  (** ** C30 within a view
      Between two reverts, the times a primary gives to its batches never decrease, whatever its clock
      and the other nodes do. *)
  Lemma primary_run : forall es s, s_primary s = true -> no_revert es ->
    nondecreasing (created (snd (run s es))) /\ forall t, In t (created (snd (run s es))) -> lower s <= t.
  Proof.
    induction es as [|e es IH]; intros s P NR; cbn [PpTime_Model.run]; [split; [constructor | intros t []]|].
    destruct (step s e) as [s1 o1] eqn:E. destruct (run s1 es) as [s2 o2] eqn:R. cbn [snd].
    assert (X : s_primary s1 = true /\ ((created o1 = [] /\ lower s1 = lower s) \/ exists t, created o1 = [t] /\ lower s1 = t /\ lower s <= t)).
    { assert (PR : forall p s1 o1, s_primary s1 = s_primary s -> processed s p s1 o1 -> s_primary s1 = true /\ ((created o1 = [] /\ lower s1 = lower s) \/ exists t, created o1 = [t] /\ lower s1 = t /\ lower s <= t)).
      { intros p s1' o1' P1 D. split; [congruence|]. left. inversion D as [? ? D1 D2 D3|r ? ? D1 D2 D3 D4]; subst; unfold lower.
        - rewrite D1. split; [destruct D3 as [->| ->]; reflexivity | reflexivity].
        - rewrite P in *. rewrite D1. split; reflexivity. }
      destruct e as [lid now k|p sender fl|k t sender fl|ks| | |ts|b|ks]; cbn [PpTime_Model.step] in E.
      - rewrite P in E. destruct (create_eff s lid now k) as (tm & C & L). rewrite C in E. injection E as <- <-. split; [exact P|]. right. exists tm. split; [reflexivity|]. split; [reflexivity | exact L].
      - destruct (process_eff _ _ _ _ _ _ E) as (A & _ & _ & D). exact (PR p s1 o1 A D).
      - destruct (enqueue_eff _ _ _ _ _ _ _ E) as (A & _ & _ & p & D). exact (PR p s1 o1 A D).
      - injection E as <- <-. split; [exact P | left; split; reflexivity].
      - destruct (s_batches s) as [|[t lid] r]; injection E as <- <-; (split; [exact P | left; split; reflexivity]).
      - exfalso. exact (NR ERevert (or_introl eq_refl)).
      - injection E as <- <-. split; [exact P | left; split; reflexivity].
      - exfalso. exact (NR (EViewChange b) (or_introl eq_refl)).
      - injection E as <- <-. split; [exact P | left; split; reflexivity]. }
    destruct X as [P1 X]. destruct (IH s1 P1 ltac:(intros e' I; apply NR; right; exact I)) as [IH1 IH2]. rewrite R in IH1, IH2. cbn [snd] in IH1, IH2.
    rewrite created_app. destruct X as [[C L]|(t & C & L & G)]; rewrite C.
    - cbn [app]. rewrite L in IH2. split; assumption.
    - cbn [app]. rewrite L in IH2. split; [constructor; [exact IH1 | apply Forall_forall; exact IH2]|].
      intros t' [<-|I]; [exact G | specialize (IH2 t' I); lia].
  Qed.
  Theorem C30_in_view_partial : forall es s, s_primary s = true -> no_revert es -> nondecreasing (created (snd (run s es))).
  Proof. intros es s P NR. exact (proj1 (primary_run es s P NR)). Qed.

  (** ** C30 over all views
      On a node that starts with the audit transactions it has, does not catch up any, and accepts
      batches only for their time: the times in its audit ledger never decrease, and whenever it
      creates a batch, its time is not before that of any batch it has committed or accepted. *)
  Definition Inv (s : st) : Prop :=
    nondecreasing (s_audit s ++ map fst (s_batches s)) /\ forall t, In t (s_audit s ++ map fst (s_batches s)) -> exists l, s_last s = Some l /\ t <= l.
  Lemma inv_lower : forall s t, Inv s -> In t (s_audit s ++ map fst (s_batches s)) -> t <= lower s.
  Proof. intros s t [_ H] I. destruct (H t I) as (l & E & L). unfold lower. rewrite E. exact L. Qed.
  Lemma inv_add : forall s s' t lid, Inv s -> lower s <= t -> s_audit s' = s_audit s -> s_batches s' = s_batches s ++ [(t, lid)] -> s_last s' = Some t -> Inv s'.
  Proof.
    intros s s' t lid I L A B X. unfold Inv. rewrite A, B, map_app, app_assoc. cbn [map fst].
    assert (H : forall y, In y (s_audit s ++ map fst (s_batches s)) -> y <= t) by (intros y J; pose proof (inv_lower s y I J); lia).
    split.
    - apply sorted_app; [exact (proj1 I) | constructor; constructor |]. intros y z J [<-|[]]. exact (H y J).
    - intros y J. exists t. split; [exact X|]. apply in_app_or in J as [J|[<-|[]]]; [exact (H y J) | lia].
  Qed.
  Lemma inv_same : forall s s', Inv s -> s_audit s' = s_audit s -> s_batches s' = s_batches s -> s_last s' = s_last s -> Inv s'.
  Proof. intros s s' I A B X. unfold Inv. rewrite A, B, X. exact I. Qed.
  Lemma revert_inv : forall s, nondecreasing (s_audit s) -> Inv (revert s).
  Proof.
    intros s N. unfold Inv, revert. cbn [s_audit s_batches s_last map]. rewrite app_nil_r. split; [exact N|]. intros t I.
    destruct (rev (s_audit s)) as [|x r] eqn:E.
    - exfalso. apply (f_equal (@rev nat)) in E. rewrite rev_involutive in E. cbn in E. rewrite E in I. exact I.
    - exists x. split; [reflexivity|]. apply (f_equal (@rev nat)) in E. rewrite rev_involutive in E. cbn [rev] in E. rewrite E in N, I.
      apply in_app_or in I as [I|[<-|[]]]; [|lia]. clear E. induction (rev r) as [|y q IH]; [destruct I|]. cbn [app] in N. inversion N as [|? ? N1 N2]; subst.
      destruct I as [<-|I]; [|exact (IH N1 I)]. rewrite Forall_forall in N2. apply N2. apply in_or_app. right. left. reflexivity.
  Qed.
  Lemma sorted_left : forall a b, nondecreasing (a ++ b) -> nondecreasing a.
  Proof.
    induction a as [|x a IH]; intros b N; [constructor|]. inversion N as [|? ? N1 N2]; subst. constructor; [exact (IH b N1)|].
    apply Forall_app in N2 as [N2 _]. exact N2.
  Qed.
  Lemma step_inv : forall s e s' os, Inv s -> match e with ECaught _ => False | _ => True end -> step s e = (s', os) -> all_regular os ->
    Inv s' /\ forall t, In t (created os) -> forall y, In y (s_audit s ++ map fst (s_batches s)) -> y <= t.
  Proof.
    intros s e s' os I NC E AR.
    assert (PR : forall p, s_audit s' = s_audit s -> processed s p s' os -> Inv s' /\ forall t, In t (created os) -> forall y, In y (s_audit s ++ map fst (s_batches s)) -> y <= t).
    { intros p A D. inversion D as [? ? D1 D2 D3|r ? ? D1 D2 D3 D4]; subst.
      - split; [exact (inv_same s s' I A D2 D1)|]. intros t J. destruct D3 as [->| ->]; destruct J.
      - assert (R := AR _ (or_introl eq_refl)). destruct (s_primary s); [destruct R|]. subst r. split; [|intros t []].
        exact (inv_add s s' (p_time p) (p_ledger p) I (D4 eq_refl) A D2 D1). }
    assert (SAME : s_audit s' = s_audit s -> s_batches s' = s_batches s -> s_last s' = s_last s -> os = [] -> Inv s' /\ forall t, In t (created os) -> forall y, In y (s_audit s ++ map fst (s_batches s)) -> y <= t).
    { intros A B X ->. split; [exact (inv_same s s' I A B X) | intros t []]. }
    destruct e as [lid now k|p sender fl|k t sender fl|ks| | |ts|b|ks]; cbn [PpTime_Model.step] in E.
    - destruct (s_primary s); [|injection E as <- <-; apply SAME; reflexivity].
      destruct (create_eff s lid now k) as (tm & C & L). rewrite C in E. injection E as <- <-. split.
      + apply (inv_add s _ tm lid I L); reflexivity.
      + intros t [<-|[]] y J. pose proof (inv_lower s y I J). lia.
    - destruct (process_eff _ _ _ _ _ _ E) as (_ & A & _ & D). exact (PR p A D).
    - destruct (enqueue_eff _ _ _ _ _ _ _ E) as (_ & A & _ & p & D). exact (PR p A D).
    - injection E as <- <-. apply SAME; reflexivity.
    - destruct (s_batches s) as [|[t lid] r] eqn:EB; injection E as <- <-; [apply SAME; reflexivity || exact EB|]. split; [|intros t' []].
      destruct I as [I1 I2]. rewrite EB in I1, I2. cbn [map fst] in I1, I2. unfold Inv. cbn [s_audit s_batches s_last]. rewrite <- !app_assoc. cbn [app]. split; [exact I1 | exact I2].
    - injection E as <- <-. split; [apply revert_inv; exact (sorted_left _ _ (proj1 I)) | intros t []].
    - destruct NC.
    - injection E as <- <-. split; [|intros t []]. apply (inv_same (revert s)); [apply revert_inv; exact (sorted_left _ _ (proj1 I)) | reflexivity | reflexivity | reflexivity].
    - injection E as <- <-. apply SAME; reflexivity.
  Qed.
  Lemma run_inv : forall es s, Inv s -> no_catchup_end es -> all_regular (snd (run s es)) -> Inv (fst (run s es)).
  Proof.
    induction es as [|e es IH]; intros s I NC AR; cbn [PpTime_Model.run] in *; [exact I|].
    destruct (step s e) as [s1 o1] eqn:E. destruct (run s1 es) as [s2 o2] eqn:R. cbn [fst snd] in *.
    destruct (step_inv s e s1 o1 I) as [I1 _].
    - destruct e; try exact Logic.I. exact (NC ts (or_introl eq_refl)).
    - exact E.
    - intros o J. apply AR. apply in_or_app. left. exact J.
    - assert (R' : run s1 es = (s2, o2)) by exact R. specialize (IH s1 I1). rewrite R' in IH. cbn [fst snd] in IH. apply IH.
      + intros ts J. exact (NC ts (or_intror J)).
      + intros o J. apply AR. apply in_or_app. right. exact J.
  Qed.
  Theorem C30_committed_partial : forall audit domain es, nondecreasing audit -> no_catchup_end es -> all_regular (snd (run (init audit domain) (ERevert :: es))) ->
    nondecreasing (s_audit (fst (run (init audit domain) (ERevert :: es)))) /\
    forall es1 lid now k es2 t, es = es1 ++ ECreate lid now k :: es2 -> let s1 := fst (run (init audit domain) (ERevert :: es1)) in
      snd (step s1 (ECreate lid now k)) = [OCreated t] -> forall y, In y (s_audit s1 ++ map fst (s_batches s1)) -> y <= t.
  Proof.
    intros audit domain es N NC AR.
    assert (I0 : Inv (revert (init audit domain))) by (apply revert_inv; exact N).
    assert (RE : forall l, run (init audit domain) (ERevert :: l) = let '(s2, o2) := run (revert (init audit domain)) l in (s2, o2)).
    { intros l. cbn [PpTime_Model.run PpTime_Model.step]. destruct (run (revert (init audit domain)) l). reflexivity. }
    split.
    - rewrite RE in *. pose proof (run_inv es (revert (init audit domain)) I0 NC) as H. destruct (run (revert (init audit domain)) es) as [s2 o2]. cbn [fst snd] in *.
      exact (sorted_left _ _ (proj1 (H AR))).
    - intros es1 lid now k es2 t -> s1 C y J. unfold s1 in *. clear s1. rewrite RE in C, J, AR.
      pose proof (run_inv es1 (revert (init audit domain)) I0) as H. rewrite run_app in AR.
      destruct (run (revert (init audit domain)) es1) as [s2 o2]. cbn [fst snd] in *.
      assert (I2 : Inv s2).
      { apply H; [intros ts Z; apply (NC ts); apply in_or_app; left; exact Z|]. intros o Z. apply AR.
        destruct (run s2 (ECreate lid now k :: es2)). apply in_or_app. left. exact Z. }
      destruct (step s2 (ECreate lid now k)) as [s3 o3] eqn:E3. cbn [snd] in C. subst o3.
      destruct (step_inv s2 (ECreate lid now k) s3 [OCreated t] I2 Logic.I E3) as [_ G]; [intros o [<-|[]]; exact Logic.I|].
      exact (G t (or_introl eq_refl) y J).
  Qed.

  (** ** C56: a replica accepts the batches of a correct primary
      If nothing accepted so far is later than the batch, the batch was not processed before, and its
      time is near the clock, its time is accepted. *)
  Lemma lower_run : forall es s T, s_primary s = false -> no_revert es -> lower s <= T ->
    (forall p r, In (OAccepted p r) (snd (run s es)) -> p_time p <= T) -> lower (fst (run s es)) <= T /\ s_primary (fst (run s es)) = false.
  Proof.
    induction es as [|e es IH]; intros s T P NR L H; cbn [PpTime_Model.run] in *; [split; assumption|].
    destruct (step s e) as [s1 o1] eqn:E. destruct (run s1 es) as [s2 o2] eqn:R. cbn [fst snd] in *.
    assert (X : s_primary s1 = false /\ lower s1 <= T).
    { assert (PR : forall p, s_primary s1 = s_primary s -> processed s p s1 o1 -> s_primary s1 = false /\ lower s1 <= T).
      { intros p P1 D. split; [congruence|]. inversion D as [? ? D1 D2 D3|r ? ? D1 D2 D3 D4]; subst; unfold lower; rewrite D1; [exact L|].
        rewrite P in *. apply (H p r). left. reflexivity. }
      destruct e as [lid now k|p sender fl|k t sender fl|ks| | |ts|b|ks]; cbn [PpTime_Model.step] in E.
      - rewrite P in E. injection E as <- <-. auto.
      - destruct (process_eff _ _ _ _ _ _ E) as (A & _ & _ & D). exact (PR p A D).
      - destruct (enqueue_eff _ _ _ _ _ _ _ E) as (A & _ & _ & p & D). exact (PR p A D).
      - injection E as <- <-. auto.
      - destruct (s_batches s) as [|[t lid] r]; injection E as <- <-; auto.
      - exfalso. exact (NR ERevert (or_introl eq_refl)).
      - injection E as <- <-. auto.
      - exfalso. exact (NR (EViewChange b) (or_introl eq_refl)).
      - injection E as <- <-. auto. }
    destruct X as [P1 L1]. specialize (IH s1 T P1 ltac:(intros e' J; apply NR; right; exact J) L1). rewrite R in IH. cbn [fst snd] in IH.
    apply IH. intros p r J. apply (H p r). apply in_or_app. right. exact J.
  Qed.
  Theorem C56_accepted_partial : forall es s T p sender now, s_primary s = false -> no_revert es -> (forall l, s_last s = Some l -> l <= T) ->
    (forall q r, In (OAccepted q r) (snd (run s es)) -> p_time q <= T) ->
    T <= p_time p -> p_time p <= now + dev -> now <= p_time p + dev ->
    let s' := fst (run s es) in
    tget (p_key p) (p_root p, sender) (s_tss s') = None -> kin (p_key p) (s_have s') = false ->
    exists r, snd (step s' (EPrePrepare p sender (mkF now true false true true))) = [OAccepted p r] /\ (r = Regular \/ r = Requested).
  Proof.
    intros es s T p sender now P NR L H G W1 W2 s' TS HV.
    destruct (lower_run es s T P NR) as [L' P']; [unfold lower; destruct (s_last s) as [l|]; [exact (L l eq_refl) | lia] | exact H |]. fold s' in L', P'.
    cbn [PpTime_Model.step]. unfold process_preprepare. rewrite TS. cbn [fl_valid fl_ordered fl_pre fl_post fl_now negb s_have]. rewrite HV.
    set (s1 := mkSt _ _ _ _ _ _ _ _ _ _).
    assert (TA : exists r, time_acceptable dev s1 p sender = Some r /\ (r = Regular \/ r = Requested)).
    { unfold time_acceptable. destruct (kin (p_key p) (s_requested s1)); [exists Requested; auto|].
      assert (TC : time_correct dev s1 p sender = true); [|rewrite TC; exists Regular; auto].
      unfold time_correct. assert (TG : tget (p_key p) (p_root p, sender) (s_tss s1) = Some now).
      { unfold s1, tget. cbn [s_tss find fst snd]. unfold keqb. rewrite !Nat.eqb_refl. reflexivity. }
      rewrite TG. unfold within. destruct (Nat.leb_spec (p_time p) (now + dev)), (Nat.leb_spec now (p_time p + dev)); try lia. cbn [andb].
      change (s_last s1) with (s_last s'). unfold lower in L'. destruct (s_last s') as [l|]; [|reflexivity].
      destruct (Nat.eqb_spec l 0), (Nat.ltb_spec (p_time p) l); cbn [negb andb]; reflexivity || lia. }
    destruct TA as (r & -> & R). exists r. split; [|exact R]. unfold accept. cbn [snd]. unfold s1 at 1. cbn [s_primary]. rewrite P'. reflexivity.
  Qed.

  (** ** C56: what is accepted for its time *)
  Theorem C56_checked : forall s p sender fl q, snd (step s (EPrePrepare p sender fl)) = [OAccepted q Regular] ->
    q = p /\ (forall l, s_last s = Some l -> l <= p_time p) /\
    let t := match tget (p_key p) (p_root p, sender) (s_tss s) with Some t => t | None => fl_now fl end in
    p_time p <= t + dev /\ t <= p_time p + dev.
  Proof.
    intros s p sender fl q E. cbn [PpTime_Model.step] in E. unfold process_preprepare in E.
    set (s1 := match tget (p_key p) (p_root p, sender) (s_tss s) with Some _ => s | None => _ end) in E.
    set (t := match tget (p_key p) (p_root p, sender) (s_tss s) with Some t => t | None => fl_now fl end).
    assert (TG : tget (p_key p) (p_root p, sender) (s_tss s1) = Some t).
    { unfold s1, t. destruct (tget (p_key p) (p_root p, sender) (s_tss s)) as [x|] eqn:T; [exact T|]. unfold tget. cbn [s_tss find fst snd]. unfold keqb. rewrite !Nat.eqb_refl. reflexivity. }
    assert (SL : s_last s1 = s_last s) by (unfold s1; destruct (tget _ _ (s_tss s)); reflexivity).
    destruct (fl_valid fl); cbn [negb] in E; [|discriminate E]. destruct (fl_ordered fl); [unfold accept in E; cbn [snd] in E; destruct (s_primary s1); discriminate E|].
    destruct (fl_pre fl); cbn [negb] in E; [|discriminate E]. destruct (kin (p_key p) (s_have s1)); [discriminate E|].
    destruct (time_acceptable dev s1 p sender) as [r|] eqn:T; [|discriminate E]. destruct (fl_post fl); cbn [negb] in E; [|discriminate E].
    unfold accept in E. cbn [snd] in E. destruct (s_primary s1); [discriminate E|]. injection E as <- ->. split; [reflexivity|].
    unfold time_acceptable in T. destruct (kin (p_key p) (s_requested s1)); [discriminate T|].
    destruct (time_correct dev s1 p sender) eqn:TC; [|destruct (kget (p_key p) (s_stashed s1)) as [[[? ?] []]|]; discriminate T].
    unfold time_correct in TC. rewrite TG, SL in TC. split.
    - intros l EL. rewrite EL in TC. destruct (Nat.eqb_spec l 0) as [Z|]; [lia|]. cbn [negb andb] in TC. destruct (Nat.ltb_spec (p_time p) l); [discriminate TC | assumption].
    - destruct (match s_last s with Some l => _ | None => false end); [discriminate TC|]. unfold within in TC. apply andb_true_iff in TC as [A B].
      apply Nat.leb_le in A. apply Nat.leb_le in B. split; assumption.
  Qed.

  (** A node without a last time uses the latest timestamp stored with its domain state. *)
  Theorem C30_first : forall s now k t, s_primary s = true -> s_last s = None -> snd (step s (ECreate DOMAIN_LEDGER_ID now k)) = [OCreated t] ->
    now <= t /\ (forall y, In y (s_domain s) -> y <= t) /\ (t = now \/ In t (s_domain s)).
  Proof.
    intros s now k t P L E. cbn [PpTime_Model.step] in E. rewrite P in E. unfold create_batch, last_from_state in E. rewrite L, Nat.eqb_refl in E. cbn [snd] in E. injection E as <-.
    assert (M : forall l, forall y, In y l -> y <= list_max l).
    { intros l y I. assert (H := proj1 (list_max_le l (list_max l)) (le_n _)). rewrite Forall_forall in H. exact (H y I). }
    assert (MI : forall l, l <> [] -> In (list_max l) l).
    { induction l as [|x l IH]; intros N; [congruence|]. change (list_max (x :: l)) with (Nat.max x (list_max l)). destruct l as [|y l]; [left; cbn; lia|].
      destruct (Nat.max_spec x (list_max (y :: l))) as [[_ ->]|[_ ->]]; [right; apply IH; discriminate | left; reflexivity]. }
    destruct (s_domain s) as [|x l] eqn:D; [cbn [epoch_for_preprepare]; split; [lia|]; split; [intros y [] | left; reflexivity]|]. cbv beta iota. change (Init.Nat.max x (list_max l)) with (list_max (x :: l)). rewrite <- D.
    assert (MX : forall y, In y (s_domain s) -> y <= list_max (s_domain s)) by apply M.
    assert (MY : In (list_max (s_domain s)) (s_domain s)) by (apply MI; rewrite D; discriminate). clear - MX MY.
    set (m := list_max (s_domain s)) in *. clearbody m. destruct (Nat.eqb_spec m 0) as [Z|Z]; cbn [epoch_for_preprepare].
    - split; [lia|]. split; [intros y I; specialize (MX y I); lia | left; reflexivity].
    - destruct (Nat.eqb_spec m 0) as [|_]; [lia|]. destruct (Nat.ltb_spec now m); cbn [negb andb].
      + split; [lia|]. split; [exact MX | right; exact MY].
      + split; [lia|]. split; [intros y I; specialize (MX y I); lia | left; reflexivity].
  Qed.

  (** A PrePrepare is called wrong only if its time is before the last accepted one or far from the
      clock of its first reception, and it was not asked for. *)
  Theorem C56_refused : forall s p sender fl q, snd (step s (EPrePrepare p sender fl)) = [OWrongTime q] ->
    q = p /\ ~ In (p_key p) (s_requested s) /\
    let t := match tget (p_key p) (p_root p, sender) (s_tss s) with Some t => t | None => fl_now fl end in
    ((exists l, s_last s = Some l /\ p_time p < l) \/ t + dev < p_time p \/ p_time p + dev < t).
  Proof.
    intros s p sender fl q E. cbn [PpTime_Model.step] in E. unfold process_preprepare in E.
    set (s1 := match tget (p_key p) (p_root p, sender) (s_tss s) with Some _ => s | None => _ end) in E.
    set (t := match tget (p_key p) (p_root p, sender) (s_tss s) with Some t => t | None => fl_now fl end).
    assert (TG : tget (p_key p) (p_root p, sender) (s_tss s1) = Some t).
    { unfold s1, t. destruct (tget (p_key p) (p_root p, sender) (s_tss s)) as [x|] eqn:T; [exact T|]. unfold tget. cbn [s_tss find fst snd]. unfold keqb. rewrite !Nat.eqb_refl. reflexivity. }
    assert (SL : s_last s1 = s_last s /\ s_requested s1 = s_requested s) by (unfold s1; destruct (tget _ _ (s_tss s)); split; reflexivity). destruct SL as [SL SR].
    assert (NA : forall r, snd (accept s1 p r) <> [OWrongTime q]) by (intros r; unfold accept; cbn [snd]; destruct (s_primary s1); discriminate).
    destruct (fl_valid fl); cbn [negb] in E; [|discriminate E]. destruct (fl_ordered fl); [destruct (NA _ E)|].
    destruct (fl_pre fl); cbn [negb] in E; [|discriminate E]. destruct (kin (p_key p) (s_have s1)); [discriminate E|].
    destruct (time_acceptable dev s1 p sender) as [r|] eqn:T; [destruct (fl_post fl); cbn [negb] in E; [destruct (NA _ E) | discriminate E]|].
    cbn [snd] in E. injection E as <-. split; [reflexivity|]. unfold time_acceptable in T.
    destruct (kin (p_key p) (s_requested s1)) eqn:K; [discriminate T|]. rewrite SR in K. split.
    - intros I. enough (Z : kin (p_key p) (s_requested s) = true) by congruence. unfold kin. apply existsb_exists. exists (p_key p). split; [exact I|]. unfold keqb. rewrite !Nat.eqb_refl. reflexivity.
    - destruct (time_correct dev s1 p sender) eqn:TC; [discriminate T|]. unfold time_correct in TC. rewrite TG, SL in TC. clear - TC.
      assert (WW : within dev (p_time p) t = false -> t + dev < p_time p \/ p_time p + dev < t).
      { unfold within. destruct (Nat.leb_spec (p_time p) (t + dev)), (Nat.leb_spec t (p_time p + dev)); cbn [andb]; intros X; try discriminate X; lia. }
      destruct (s_last s) as [l|]; [|right; apply WW; exact TC]. destruct (Nat.eqb_spec l 0); cbn [negb andb] in TC; [right; apply WW; exact TC|].
      destruct (Nat.ltb_spec (p_time p) l); [left; exists l; split; [reflexivity | assumption] | right; apply WW; exact TC].
  Qed.

  (** A Prepare makes the node accept a PrePrepare only if it has stashed that one, and more than f
      Prepares with one time have been received for it. *)
  Lemma most_frequent_in : forall l n, n <= most_frequent l -> 0 < n -> exists t, n <= count_occ Nat.eq_dec l t.
  Proof.
    intros l n H P. unfold most_frequent in H.
    assert (G : forall m : list nat, n <= list_max (map (fun x => count_occ Nat.eq_dec l x) m) -> exists t, n <= count_occ Nat.eq_dec l t); [|exact (G l H)].
    induction m as [|x m IH]; intros L; [cbn in L; lia|]. cbn [map] in L. change (list_max (?a :: ?b)) with (Nat.max a (list_max b)) in L.
    destruct (Nat.max_spec (count_occ Nat.eq_dec l x) (list_max (map (fun x => count_occ Nat.eq_dec l x) m))) as [[_ E]|[_ E]]; rewrite E in L; [exact (IH L) | exists x; exact L].
  Qed.
  Theorem C56_vouched : forall s k t sender fl o, In o (snd (step s (EPrepare k t sender fl))) ->
    exists p from t', kget k (s_stashed s) = Some (p, from, false) /\
      f < count_occ Nat.eq_dec (map fst (match kget k (s_waiting s) with Some l => l | None => [] end ++ [(t, sender)])) t' /\
      match o with OAccepted q _ | OReordered q _ | OWrongTime q => q = p | OCreated _ => False end.
  Proof.
    intros s k t sender fl o I. cbn [PpTime_Model.step] in I. unfold enqueue_prepare in I. cbn [s_stashed s_waiting] in I.
    set (ws := match kget k (s_waiting s) with Some l => l | None => [] end ++ [(t, sender)]) in *.
    destruct (kget k (s_stashed s)) as [[[p from] done]|]; [|destruct I].
    destruct ((f <? length ws) && (S f <=? most_frequent (map fst ws)) && negb done) eqn:C; [|destruct I].
    apply andb_true_iff in C as [C D]. apply andb_true_iff in C as [_ C]. apply Nat.leb_le in C. destruct done; [discriminate D|].
    destruct (most_frequent_in (map fst ws) (S f) C (Nat.lt_0_succ f)) as (t' & T). exists p, from, t'. split; [reflexivity|]. split; [lia|].
    match type of I with In _ (snd ?X) => destruct X as [s' os] eqn:E end. cbn [snd] in I.
    destruct (process_eff _ _ _ _ _ _ E) as (_ & _ & _ & PD). destruct PD as [s' os D1 D2 D3|r s' os D1 D2 D3 D4].
    - destruct D3 as [->| ->]; [destruct I | destruct I as [<-|[]]; reflexivity].
    - subst os. destruct I as [<-|[]]. destruct (s_primary _); reflexivity.
  Qed.

  (** ** What does not hold *)

  (** Once a batch with a late time was accepted, earlier batches are refused until the next revert,
      unless they are requested, backed by Prepares, or ordered already. *)
  Definition plain (es : list event) : Prop := forall e, In e es ->
    match e with EPrePrepare _ _ fl => fl_ordered fl = false | EPrepare _ _ _ _ | ERequest _ | ERevert | EViewChange _ => False | _ => True end.
  Lemma blocked_run : forall es s X, s_primary s = false -> s_last s = Some X -> s_requested s = [] -> (forall k p q, In (k, (p, q, true)) (s_stashed s) -> False) ->
    plain es -> (forall p sender fl, In (EPrePrepare p sender fl) es -> p_time p < X) -> forall p r, ~ In (OAccepted p r) (snd (run s es)).
  Proof.
    induction es as [|e es IH]; intros s X P L RQ ST PL H p r; cbn [PpTime_Model.run]; [intros []|].
    destruct (step s e) as [s1 o1] eqn:E. destruct (run s1 es) as [s2 o2] eqn:R. cbn [snd].
    assert (Y : s_primary s1 = false /\ s_last s1 = Some X /\ s_requested s1 = [] /\ (forall k p q, In (k, (p, q, true)) (s_stashed s1) -> False) /\ forall p r, ~ In (OAccepted p r) o1).
    { pose proof (PL e (or_introl eq_refl)) as PE. destruct e as [lid now k|p0 sender fl|k t sender fl|ks| | |ts|b|ks]; try contradiction PE; cbn [PpTime_Model.step] in E.
      - rewrite P in E. injection E as <- <-. repeat split; auto.
      - unfold process_preprepare in E.
        set (s0 := match tget (p_key p0) (p_root p0, sender) (s_tss s) with Some _ => s | None => _ end) in E.
        assert (Q : s_primary s0 = false /\ s_last s0 = Some X /\ s_requested s0 = [] /\ s_stashed s0 = s_stashed s) by (unfold s0; destruct (tget _ _ (s_tss s)); cbn; auto).
        destruct Q as (Q1 & Q2 & Q3 & Q4). rewrite PE in E.
        assert (NIL : s1 = s0 /\ o1 = [] -> s_primary s1 = false /\ s_last s1 = Some X /\ s_requested s1 = [] /\ (forall k p q, In (k, (p, q, true)) (s_stashed s1) -> False) /\ forall p r, ~ In (OAccepted p r) o1).
        { intros [-> ->]. rewrite Q4. repeat split; auto. }
        destruct (fl_valid fl); cbn [negb] in E; [|apply NIL; injection E as <- <-; auto].
        destruct (fl_pre fl); cbn [negb] in E; [|apply NIL; injection E as <- <-; auto].
        destruct (kin (p_key p0) (s_have s0)); [apply NIL; injection E as <- <-; auto|].
        assert (TA : time_acceptable dev s0 p0 sender = None).
        { unfold time_acceptable. rewrite Q3. cbn [kin existsb]. unfold time_correct. rewrite Q2. pose proof (H p0 sender fl (or_introl eq_refl)) as LT.
          destruct (Nat.eqb_spec X 0) as [Z|]; [lia|]. destruct (Nat.ltb_spec (p_time p0) X); [|lia]. cbn [negb andb].
          rewrite Q4. unfold kget. destruct (find (fun x => keqb (fst x) (p_key p0)) (s_stashed s)) as [[k [[q1 q2] []]]|] eqn:FF; try reflexivity.
          exfalso. apply find_some in FF as [FF _]. exact (ST k q1 q2 FF). }
        rewrite TA in E. injection E as <- <-. cbn [s_primary s_last s_requested s_stashed]. repeat split; auto.
        + intros k q1 q2 [J|J]; [discriminate J|]. apply filter_In in J as [J _]. rewrite Q4 in J. exact (ST k q1 q2 J).
        + intros q r' [J|[]]. discriminate J.
      - destruct (s_batches s) as [|[t lid] q]; injection E as <- <-; cbn [s_primary s_last s_requested s_stashed]; repeat split; auto.
      - injection E as <- <-. cbn [s_primary s_last s_requested s_stashed]. repeat split; auto.
      - injection E as <- <-. cbn [s_primary s_last s_requested s_stashed]. repeat split; auto. intros k q1 q2 J. apply filter_In in J as [J _]. exact (ST k q1 q2 J). }
    destruct Y as (Y1 & Y2 & Y3 & Y4 & Y5). intros J. apply in_app_or in J as [J|J]; [exact (Y5 p r J)|].
    specialize (IH s1 X Y1 Y2 Y3 Y4 ltac:(intros e' Z; apply PL; right; exact Z) ltac:(intros p' q fl Z; apply (H p' q fl); right; exact Z) p r).
    rewrite R in IH. exact (IH J).
  Qed.
End Times.

(** *** Concrete cases *)
Definition ok (now : nat) : flags := mkF now true false true true.
Definition regularb (o : out) : bool := match o with OAccepted _ Regular => true | OAccepted _ _ | OReordered _ _ => false | _ => true end.
Lemma regularb_ok : forall os, forallb regularb os = true -> all_regular os.
Proof. intros os H o I. rewrite forallb_forall in H. specialize (H o I). destruct o as [t|p []|p r|p]; cbn in *; congruence || exact Logic.I || reflexivity. Qed.
Lemma stashedb_ok : forall s, forallb (fun x : key * (pp * nat * bool) => negb (snd (snd x))) (s_stashed s) = true -> forall k q a, In (k, (q, a, true)) (s_stashed s) -> False.
Proof. intros s H k q a I. rewrite forallb_forall in H. specialize (H _ I). discriminate H. Qed.
Definition pA : pp := mkPP (0, 1) 100 1 1.

(** a primary whose clock goes back and forth, with other messages in between *)
Example C30_in_view_case :
  let es := [ECreate 1 105 (1, 2); EPrePrepare (mkPP (1, 3) 200 3 1) 4 (ok 100); ECreate 1 90 (1, 3); EOrdered; ECreate 1 95 (1, 4); ECaught [7]; ECreate 1 130 (1, 5)] in
  let s := fst (run 1 10 (init [40] []) [ERevert; EViewChange true]) in
  s_primary s = true /\ no_revert es /\ created (snd (run 1 10 s es)) = [105; 105; 105; 130].
Proof.
  cbv zeta. split; [(vm_compute; reflexivity)|]. split; [|(vm_compute; reflexivity)]. intros e I. repeat (destruct I as [<-|I]; [exact Logic.I|]). destruct I.
Qed.

(** a node that is a replica, orders two batches, loses one to a view change, becomes the primary
    with a slow clock, and orders its own batch *)
Example C30_committed_case :
  let es := [EPrePrepare pA 0 (ok 105); EPrePrepare (mkPP (0, 2) 104 2 1) 0 (ok 106); EPrePrepare (mkPP (0, 3) 107 2 1) 0 (ok 107); EOrdered; EOrdered;
             EViewChange true; ECreate 1 90 (1, 3); EOrdered] in
  nondecreasing [40; 60] /\ no_catchup_end es /\ all_regular (snd (run 1 10 (init [40; 60] []) (ERevert :: es))) /\
  s_audit (fst (run 1 10 (init [40; 60] []) (ERevert :: es))) = [40; 60; 100; 104; 104] /\ created (snd (run 1 10 (init [40; 60] []) (ERevert :: es))) = [104].
Proof.
  cbv zeta. split; [repeat constructor|]. split; [intros ts I; repeat (destruct I as [I|I]; [discriminate I|]); exact I|].
  split; [|split; (vm_compute; reflexivity)]. apply regularb_ok. vm_compute. reflexivity.
Qed.

(** a replica that has accepted one batch, and refused another one, accepts the next *)
Example C56_accepted_case :
  let es := [EPrePrepare pA 0 (ok 105); EPrePrepare (mkPP (0, 2) 99 2 1) 0 (ok 106); EPrepare (0, 2) 103 5 (ok 107)] in
  let s := init [] [] in
  s_primary s = false /\ no_revert es /\ snd (run 1 10 s es) = [OAccepted pA Regular; OWrongTime (mkPP (0, 2) 99 2 1)] /\
  let s' := fst (run 1 10 s es) in
  tget (0, 2) (8, 0) (s_tss s') = None /\ kin (0, 2) (s_have s') = false /\
  snd (step 1 10 s' (EPrePrepare (mkPP (0, 2) 103 8 1) 0 (ok 110))) = [OAccepted (mkPP (0, 2) 103 8 1) Regular].
Proof.
  cbv zeta. split; [(vm_compute; reflexivity)|]. split; [|repeat split; (vm_compute; reflexivity)]. intros e I. repeat (destruct I as [<-|I]; [exact Logic.I|]). destruct I.
Qed.
Example C56_checked_case : snd (step 1 10 (init [] []) (EPrePrepare pA 0 (ok 105))) = [OAccepted pA Regular].
Proof. (vm_compute; reflexivity). Qed.

Example C30_first_case : let s := fst (run 1 10 (init [] [30; 60; 50]) [EViewChange true]) in
  s_primary s = true /\ s_last s = None /\ snd (step 1 10 s (ECreate 1 55 (1, 1))) = [OCreated 60].
Proof. vm_compute. auto. Qed.
Example C56_refused_case : let s := fst (run 1 10 (init [] []) [EPrePrepare pA 0 (ok 105)]) in
  snd (step 1 10 s (EPrePrepare (mkPP (0, 2) 99 2 1) 0 (ok 100))) = [OWrongTime (mkPP (0, 2) 99 2 1)] /\
  snd (step 1 10 s (EPrePrepare (mkPP (0, 2) 111 2 1) 0 (ok 100))) = [OWrongTime (mkPP (0, 2) 111 2 1)] /\
  snd (step 1 10 s (EPrePrepare (mkPP (0, 2) 110 2 1) 0 (ok 100))) = [OAccepted (mkPP (0, 2) 110 2 1) Regular] /\
  snd (step 1 10 s (EPrePrepare (mkPP (0, 2) 100 2 1) 0 (ok 110))) = [OAccepted (mkPP (0, 2) 100 2 1) Regular] /\
  snd (step 1 10 s (EPrePrepare (mkPP (0, 2) 100 2 1) 0 (ok 111))) = [OWrongTime (mkPP (0, 2) 100 2 1)].
Proof. vm_compute. auto 6. Qed.
(** two Prepares with one time out of three do, with f = 1 *)
Example C56_vouched_case : let p := mkPP (0, 1) 120 1 1 in
  let s := fst (run 1 10 (init [] []) [EPrePrepare p 0 (ok 100); EPrepare (0, 1) 120 2 (ok 101); EPrepare (0, 1) 119 3 (ok 101)]) in
  snd (step 1 10 s (EPrepare (0, 1) 120 4 (ok 102))) = [OAccepted p Vouched].
Proof. vm_compute. reflexivity. Qed.

(** *** What does not hold *)
(** A catch-up reverts the batches that are not ordered, and with them the time of the last one: the
    next batch of the same primary can be earlier than one it has sent. *)
Theorem C30_revert_refuted : exists audit es, snd (run 1 10 (init audit []) es) = [OCreated 50; OCreated 47] /\ ~ In (EViewChange false) es /\
  forall ts, ~ In (ECaught ts) es.
Proof.
  exists [40], [EViewChange true; ECreate 1 50 (1, 1); ERevert; ECreate 1 47 (1, 1)]. split; [(vm_compute; reflexivity)|].
  split; [intros I; repeat (destruct I as [I|I]; [discriminate I|]); exact I | intros ts I; repeat (destruct I as [I|I]; [discriminate I|]); exact I].
Qed.
(** After a catch-up the time of the last batch is that of the ledger before the catch-up: the
    primary gives its next batch a time before the batches that it has just caught up. *)
Theorem C30_catchup_refuted : exists es, let s := fst (run 1 10 (init [40] []) es) in
  s_audit s = [40; 50] /\ snd (step 1 10 s (ECreate 1 41 (1, 2))) = [OCreated 41].
Proof. exists [EViewChange true; ECreate 1 50 (1, 1); ERevert; ECaught [50]]. split; (vm_compute; reflexivity). Qed.
(** The new primary orders the batches of the old view again without noting their time: with a clock
    behind that of the old primary its first batch is before them, and a replica refuses it. *)
Theorem C30_reordered_refuted : exists es es' p p',
  (* the new primary: orders p again, then creates p' *)
  snd (run 1 10 (init [40] []) es) = [OAccepted pA Regular; OReordered p Regular; OCreated (p_time p')] /\ p_time p' < p_time p /\
  (* a replica: orders p again, then refuses p' *)
  snd (run 1 10 (init [40] []) es') = [OAccepted pA Regular; OAccepted p Regular; OWrongTime p'].
Proof.
  exists [ERevert; EPrePrepare pA 0 (ok 97); EViewChange true; EPrePrepare (mkPP (1, 1) 100 1 1) 1 (ok 98); ECreate 1 99 (1, 2)].
  exists [ERevert; EPrePrepare pA 0 (ok 100); EViewChange false; EPrePrepare (mkPP (1, 1) 100 1 1) 1 (ok 101); EPrePrepare (mkPP (1, 2) 99 5 1) 1 (ok 102)].
  exists (mkPP (1, 1) 100 1 1), (mkPP (1, 2) 99 5 1). split; [(vm_compute; reflexivity)|]. split; [cbn; lia | (vm_compute; reflexivity)].
Qed.

(** One message of one node, for a number that is ordered already, makes a replica refuse every
    later batch of the primary for its time, until the next revert. *)
Theorem C56_blocked_refuted : exists es p sender,
  (forall q snd fl, In (EPrePrepare q snd fl) es -> fl_ordered fl = false) /\
  let s := fst (run 1 10 (init [40] []) (es ++ [EPrePrepare p sender (mkF 101 true true true true)])) in
  snd (step 1 10 (fst (run 1 10 (init [40] []) es)) (EPrePrepare (mkPP (1, 2) 102 5 1) 0 (ok 102))) = [OAccepted (mkPP (1, 2) 102 5 1) Regular] /\
  forall es', plain es' -> (forall q snd fl, In (EPrePrepare q snd fl) es' -> p_time q < 300) -> forall q r, ~ In (OAccepted q r) (snd (run 1 10 s es')).
Proof.
  exists [ERevert; EPrePrepare pA 0 (ok 97); EOrdered; EViewChange false], (mkPP (1, 1) 300 9 1), 9. split.
  - intros q sn fl I. repeat (destruct I as [I|I]; [try discriminate I; injection I as <- <- <-; reflexivity|]). destruct I.
  - cbv zeta. split; [(vm_compute; reflexivity)|]. intros es' PL H. apply (blocked_run 1 10 es' _ 300); [(vm_compute; reflexivity) | (vm_compute; reflexivity) | (vm_compute; reflexivity) | | exact PL | exact H].
    apply stashedb_ok. vm_compute. reflexivity.
Qed.

(** One node's Prepares, with whatever time, make a replica accept a batch with a wrong time. *)
Theorem C56_vouched_refuted : exists p, 10 < p_time p - 100 /\
  snd (run 1 10 (init [40] []) [ERevert; EPrePrepare p 0 (ok 100); EPrepare (p_key p) 77 9 (ok 101); EPrepare (p_key p) 77 9 (ok 102)]) = [OWrongTime p; OAccepted p Vouched] /\
  p_time p <> 77.
Proof. exists (mkPP (0, 1) 200 1 1). split; [apply Nat.ltb_lt; (vm_compute; reflexivity)|]. split; [(vm_compute; reflexivity)|]. apply Nat.eqb_neq. (vm_compute; reflexivity). Qed.

(** A batch first processed too long after its time is refused forever, whatever the clock then says:
    this is what happens to the batches of the old view after a view change that took long. *)
Lemma late_run : forall es s p sender t0, s_primary s = false -> s_requested s = [] -> (forall k q a, In (k, (q, a, true)) (s_stashed s) -> False) ->
  tget (p_key p) (p_root p, sender) (s_tss s) = Some t0 -> within 10 (p_time p) t0 = false ->
  (forall e, In e es -> exists fl, e = EPrePrepare p sender fl /\ fl_ordered fl = false) -> forall q r, ~ In (OAccepted q r) (snd (run 1 10 s es)).
Proof.
  induction es as [|e es IH]; intros s p sender t0 P RQ ST TG W H q r; cbn [run]; [intros []|].
  destruct (H e (or_introl eq_refl)) as (fl & -> & FO). destruct (step 1 10 s (EPrePrepare p sender fl)) as [s1 o1] eqn:E. destruct (run 1 10 s1 es) as [s2 o2] eqn:R. cbn [snd].
  assert (Y : s_primary s1 = false /\ s_requested s1 = [] /\ (forall k q a, In (k, (q, a, true)) (s_stashed s1) -> False) /\ s_tss s1 = s_tss s /\ ~ In (OAccepted q r) o1).
  { cbn [step] in E. unfold process_preprepare in E. rewrite TG, FO in E.
    destruct (fl_valid fl); cbn [negb] in E; [|injection E as <- <-; repeat split; auto]. destruct (fl_pre fl); cbn [negb] in E; [|injection E as <- <-; repeat split; auto].
    destruct (kin (p_key p) (s_have s)); [injection E as <- <-; repeat split; auto|].
    assert (TA : time_acceptable 10 s p sender = None).
    { unfold time_acceptable. rewrite RQ. cbn [kin existsb]. unfold time_correct. rewrite TG, W.
      destruct (match s_last s with Some l => _ | None => false end).
      all: unfold kget; destruct (find (fun x => keqb (fst x) (p_key p)) (s_stashed s)) as [[k [[q1 q2] []]]|] eqn:FF; try reflexivity; exfalso; apply find_some in FF as [FF _]; exact (ST k q1 q2 FF). }
    rewrite TA in E. injection E as <- <-. cbn [s_primary s_requested s_stashed s_tss]. split; [exact P|]. split; [exact RQ|]. split; [|split; [reflexivity | intros [J|[]]; discriminate J]].
    intros k q1 q2 [J|J]; [discriminate J|]. apply filter_In in J as [J _]. exact (ST k q1 q2 J). }
  destruct Y as (Y1 & Y2 & Y3 & Y4 & Y5). intros J. apply in_app_or in J as [J|J]; [exact (Y5 J)|].
  specialize (IH s1 p sender t0 Y1 Y2 Y3). rewrite Y4, R in IH. exact (IH TG W (fun e' Z => H e' (or_intror Z)) q r J).
Qed.
Theorem C56_late_refuted : exists p p', p_time p' = p_time p /\
  let s := fst (run 1 10 (init [40] []) [ERevert; EPrePrepare p 0 (ok 97); EViewChange false; EPrePrepare p' 1 (ok 111)]) in
  snd (run 1 10 (init [40] []) [ERevert; EPrePrepare p 0 (ok 97)]) = [OAccepted p Regular] /\
  forall es, (forall e, In e es -> exists fl, e = EPrePrepare p' 1 fl /\ fl_ordered fl = false) -> forall q r, ~ In (OAccepted q r) (snd (run 1 10 s es)).
Proof.
  exists pA, (mkPP (1, 1) 100 1 1). split; [(vm_compute; reflexivity)|]. cbv zeta. split; [(vm_compute; reflexivity)|]. intros es H.
  apply (late_run es _ (mkPP (1, 1) 100 1 1) 1 111); [(vm_compute; reflexivity) | (vm_compute; reflexivity) | | (vm_compute; reflexivity) | (vm_compute; reflexivity) | exact H].
  apply stashedb_ok. vm_compute. reflexivity.
Qed.

Print Assumptions C30_in_view_partial.
Print Assumptions C30_committed_partial.
Print Assumptions C30_revert_refuted.
Print Assumptions C30_catchup_refuted.
Print Assumptions C30_reordered_refuted.
Print Assumptions C56_accepted_partial.
Print Assumptions C56_checked.
Print Assumptions C30_first.
Print Assumptions C56_refused.
Print Assumptions C56_vouched.
Print Assumptions C56_blocked_refuted.
Print Assumptions C56_vouched_refuted.
Print Assumptions C56_late_refuted.
