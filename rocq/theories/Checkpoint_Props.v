(** C24, C44: checkpoints and watermarks, for every sequence of messages and orderings. *)
From Coq Require Import List Arith Bool Lia.
From Verif Require Import Quorum_Model Quorum_Props Validator_Model Checkpoint_Model Checkpoint_Proofs.
Import ListNotations.

(** ** Vocabulary *)

(** the state of a replica which started with the shared data [h] and then handled [es], and
    everything it sent meanwhile *)
Definition after (cfg : config) (h : shared) (es : list event) : state := fst (run cfg (init cfg h) es).
Definition outputs (cfg : config) (h : shared) (es : list event) : list output := snd (run cfg (init cfg h) es).

(** the votes needed on a checkpoint, n - f - 1, for the pool as it is now *)
Definition votes_needed (s : state) : nat :=
  sh_nodes (s_sh s) - getMaxFailures (sh_nodes (s_sh s)) - 1.

(** at least [n] different nodes sent a Checkpoint with this view, number and digest *)
Definition reported (es : list event) (n view num : nat) (d : digest) : Prop :=
  exists names, NoDup names /\ n <= length names /\ forall x, In x names ->
    exists c, In (ECheckpoint c x) es /\ cp_view c = view /\ cp_seq c = num /\ cp_digest c = d.

(** What the other services guarantee.  There are always at least two validators.  On the
    master instance no batch is ordered at or below a checkpoint that was announced as stable,
    and the audit ledger, whose last transaction a catch-up reports, never loses a batch. *)
Definition sound_event (cfg : config) (h : shared) (es : list event) (e : event) : Prop :=
  match e with
  | EShared h' => 2 <= sh_nodes h'
  | EOrdered n _ => c_master cfg = true -> forall v m, In (OStabilized v m) (outputs cfg h es) -> m < n
  | ECatchupFinished a _ => c_master cfg = true ->
      (forall n r, In (EOrdered n r) es -> n <= snd a) /\
      (forall a' b, In (ECatchupFinished a' b) es -> snd a' <= snd a)
  | _ => True
  end.
Definition sound (cfg : config) (h : shared) (es : list event) : Prop :=
  c_freq cfg <> 0 /\ 2 <= sh_nodes h /\
  forall es1 e es2, es = es1 ++ e :: es2 -> sound_event cfg h es1 e.

(** ** Histories *)
Lemma run_snoc cfg s es e : run cfg s (es ++ [e]) =
  (fst (step cfg e (fst (run cfg s es))), snd (run cfg s es) ++ snd (step cfg e (fst (run cfg s es)))).
Proof.
  revert s. induction es as [|e0 es IH]; intros s; simpl.
  - destruct (step cfg e s) as [s1 o1]. simpl. rewrite app_nil_r. reflexivity.
  - destruct (step cfg e0 s) as [s1 o1]. rewrite IH. destruct (run cfg s1 es) as [s2 o2]. simpl.
    destruct (step cfg e s2) as [s3 o3]. simpl. rewrite app_assoc. reflexivity.
Qed.
Lemma after_snoc cfg h es e : after cfg h (es ++ [e]) = fst (step cfg e (after cfg h es)).
Proof. unfold after. rewrite run_snoc. reflexivity. Qed.
Lemma outputs_snoc cfg h es e : outputs cfg h (es ++ [e]) = outputs cfg h es ++ snd (step cfg e (after cfg h es)).
Proof. unfold outputs, after. rewrite run_snoc. reflexivity. Qed.
Lemma sound_snoc cfg h es e : sound cfg h (es ++ [e]) -> sound cfg h es /\ sound_event cfg h es e.
Proof.
  intros (F & N & H). split.
  - refine (conj F (conj N _)). intros es1 e1 es2 ->. apply (H es1 e1 (es2 ++ [e])). rewrite <- app_assoc. reflexivity.
  - apply (H es e []). reflexivity.
Qed.

Lemma init_inv cfg h : c_freq cfg <> 0 -> 2 <= sh_nodes h -> inv cfg [] [] (init cfg h).
Proof.
  intros F N. constructor; simpl.
  - exact N.
  - contradiction.
  - constructor.
  - intros k []. reflexivity.
  - intros c [<-|[]]. simpl. lia.
  - apply Nat.mod_0_l. exact F.
  - intros c [<-|[]]. simpl. apply Nat.mod_0_l. exact F.
  - intros _ c [<-|[]]. left. reflexivity.
  - intros _ c [<-|[]]. simpl. lia.
  - intros _. eexists. split; [left; reflexivity|reflexivity].
Qed.

Lemma emitted cfg h es : s_stable (after cfg h es) = 0 \/ exists v, In (OStabilized v (s_stable (after cfg h es))) (outputs cfg h es).
Proof.
  induction es as [|e es IH] using rev_ind; [left; reflexivity|].
  rewrite after_snoc, outputs_snoc. destruct (step_emitting cfg e (after cfg h es)) as [->|[->|(v & X)]].
  - destruct IH as [->|(v & X)]; [left; reflexivity|right; exists v; apply in_or_app; left; exact X].
  - left. reflexivity.
  - right. exists v. apply in_or_app. right. exact X.
Qed.

Lemma reached_bound es n m : reached es n ->
  (forall k r, In (EOrdered k r) es -> k <= m) -> (forall a b, In (ECatchupFinished a b) es -> snd a <= m) -> n <= m.
Proof.
  intros [->|[(k & r & X & L)|(a & b & X & L)]] A B; [lia| |].
  - specialize (A k r X). lia.
  - specialize (B a b X). lia.
Qed.

Lemma stable_reached cfg es outs s : c_master cfg = true -> inv cfg es outs s -> reached es (s_stable s).
Proof. intros M I. destruct (i_has _ _ _ _ I M) as (c & C & <-). apply (i_reached _ _ _ _ I M c C). Qed.

Lemma step_inv cfg h es e : c_freq cfg <> 0 -> inv cfg es (outputs cfg h es) (after cfg h es) -> sound_event cfg h es e ->
  inv cfg (es ++ [e]) (outputs cfg h (es ++ [e])) (after cfg h (es ++ [e])).
Proof.
  intros HF I Sd. rewrite outputs_snoc, after_snoc.
  destruct (step cfg e (after cfg h es)) as [s' o] eqn:E. cbn [fst snd].
  assert (G : forall P : Prop, inv cfg (es ++ [e]) (outputs cfg h es) s' /\ P -> inv cfg (es ++ [e]) (outputs cfg h es ++ o) s').
  { intros P (X & _). eapply inv_mono; [apply incl_refl|apply incl_appl, incl_refl|exact X]. }
  destruct e; cbn [step] in E.
  - eapply G, checkpoint_step; eauto.
  - refine (proj1 (ordered_step _ _ _ _ _ _ _ _ I _ E)). intros M. simpl in Sd.
    destruct (emitted cfg h es) as [->|(v & X)]; [lia|]. specialize (Sd M v _ X). lia.
  - eapply G, new_view_step; eauto.
  - eapply G, catchup_step; eauto. intros M. destruct (Sd M) as (A & B).
    apply (reached_bound es); [eapply stable_reached; eauto|exact A|exact B].
  - eapply G, (marks_step cfg es _ _ EPropagatePrimaryDone); eauto.
  - eapply G, (marks_step cfg es _ _ (EBackupSetup inst)); eauto.
  - apply (G True). split; [|exact Logic.I]. injection E as <- <-. apply inv_shared; [exact Sd|].
    eapply inv_mono; [apply incl_appl, incl_refl|apply incl_refl|exact I].
Qed.

Lemma history_inv cfg h es : sound cfg h es -> inv cfg es (outputs cfg h es) (after cfg h es).
Proof.
  induction es as [|e es IH] using rev_ind; intros Sd.
  - destruct Sd as (F & N & _). apply init_inv; assumption.
  - destruct (sound_snoc _ _ _ _ Sd) as (S1 & S2). apply step_inv; auto. apply Sd.
Qed.

Lemma vouched_reported es n k : vouched es n k -> reported es n (k_view k) (k_seq k) (k_digest k).
Proof.
  intros (names & D & L & H). exists names. refine (conj D (conj L _)). intros x X.
  destruct (H x X) as (c & C & <-). exists c. auto.
Qed.

(** ** C24 *)

(** Why the stable checkpoint moved when [e] was handled. *)
Definition moved_because (cfg : config) (h : shared) (es : list event) (e : event) (new : nat) : Prop :=
  match e with
  | ECheckpoint _ _ | EOrdered _ _ =>
      (* this replica made the checkpoint, and n-f-1 different nodes reported the same *)
      exists c, In (OSend c) (outputs cfg h (es ++ [e])) /\ cp_seq c = new /\
        reported (es ++ [e]) (votes_needed (after cfg h es)) (cp_view c) new (cp_digest c)
  | ENewViewAccepted _ c =>
      (* the NewView message chose it, and this replica had made it *)
      cp_seq c = new /\ In (OSend c) (outputs cfg h es)
  | ECatchupFinished a _ =>
      (* the ledgers were caught up beyond it *)
      new = snd a / c_freq cfg * c_freq cfg
  | _ => False
  end.

(** On the master instance the stable checkpoint only moves forward, and only with a reason. *)
Theorem C24_stable_moves : forall cfg h es e, sound cfg h (es ++ [e]) -> c_master cfg = true ->
  s_stable (after cfg h (es ++ [e])) = s_stable (after cfg h es) \/
  (s_stable (after cfg h es) < s_stable (after cfg h (es ++ [e])) /\
   moved_because cfg h es e (s_stable (after cfg h (es ++ [e])))).
Proof.
  intros cfg h es e Sd M. destruct (sound_snoc _ _ _ _ Sd) as (S1 & S2).
  pose proof (history_inv cfg h es S1) as I. pose proof (proj1 Sd) as HF.
  rewrite after_snoc. unfold moved_because. rewrite outputs_snoc.
  destruct (step cfg e (after cfg h es)) as [s' o] eqn:E. cbn [fst snd].
  destruct e; cbn [step] in E.
  - destruct (checkpoint_step _ _ _ _ _ _ _ _ HF I E) as (_ & _ & [X|(L & k & V & D)] & _); [left; exact X|right].
    split; [exact L|]. destruct D as [(c' & K & C & Q)|(X & _)]; [|congruence].
    exists c'. apply vouched_reported in V. subst k. simpl in *.
    refine (conj _ (conj Q _)); [apply in_or_app; left; exact C|]. rewrite <- Q. exact V.
  - assert (Low : c_master cfg = true -> s_stable (after cfg h es) <= n).
    { intros _. simpl in S2. destruct (emitted cfg h es) as [->|(v & X)]; [lia|]. specialize (S2 M v _ X). lia. }
    destruct (ordered_step _ _ _ _ _ _ _ _ I Low E) as (_ & _ & [X|(L & k & V & (c' & K & C & Q))] & _); [left; exact X|right].
    split; [exact L|]. exists c'. apply vouched_reported in V. subst k. simpl in *.
    refine (conj C (conj Q _)). rewrite <- Q. exact V.
  - destruct (new_view_step _ _ _ _ _ _ _ _ I E) as (_ & _ & D). destruct (D M) as ([X|(L & Q & C)] & _); [left; exact X|right].
    auto.
  - destruct (S2 M) as (A & B).
    assert (L : c_master cfg = true -> s_stable (after cfg h es) <= snd caught).
    { intros _. apply (reached_bound es); [eapply stable_reached; eauto|exact A|exact B]. }
    destruct (catchup_step _ _ _ _ _ _ _ _ HF I L E) as (_ & _ & [X|(_ & L2 & _ & Q)] & _); [left; exact X|right; auto].
  - left. apply (marks_step cfg es _ _ EPropagatePrimaryDone _ _ I (or_introl eq_refl) E).
  - left. apply (marks_step cfg es _ _ (EBackupSetup inst) _ _ I (or_intror (ex_intro _ inst eq_refl)) E).
  - left. injection E as <- <-. reflexivity.
Qed.

(** On a backup instance it moves backwards only when a new view starts; otherwise it moves to a
    checkpoint which n-f-1 nodes reported (rounded down to a multiple of CHK_FREQ). *)
Theorem C24_backup_stable_moves : forall cfg h es e, sound cfg h (es ++ [e]) -> c_master cfg = false ->
  s_stable (after cfg h (es ++ [e])) = s_stable (after cfg h es) \/
  (exists v c, e = ENewViewAccepted v c /\ s_stable (after cfg h (es ++ [e])) = 0) \/
  (s_stable (after cfg h es) < s_stable (after cfg h (es ++ [e])) /\
   exists v n d, reported (es ++ [e]) (votes_needed (after cfg h es)) v n d /\
     s_stable (after cfg h (es ++ [e])) = n / c_freq cfg * c_freq cfg).
Proof.
  intros cfg h es e Sd M. destruct (sound_snoc _ _ _ _ Sd) as (S1 & S2).
  pose proof (history_inv cfg h es S1) as I. pose proof (proj1 Sd) as HF.
  rewrite after_snoc.
  destruct (step cfg e (after cfg h es)) as [s' o] eqn:E. cbn [fst snd].
  assert (Fl : forall s1 o1, inv cfg (es ++ [e]) o1 s1 -> s_stable s1 = s_stable s1 / c_freq cfg * c_freq cfg).
  { intros s1 o1 J. pose proof (i_freq _ _ _ _ J) as Z. pose proof (Nat.div_mod (s_stable s1) (c_freq cfg) HF). lia. }
  destruct e; cbn [step] in E.
  - destruct (checkpoint_step _ _ _ _ _ _ _ _ HF I E) as (J & _ & [X|(L & k & V & D)] & _); [left; exact X|right; right].
    split; [exact L|]. apply vouched_reported in V. exists (k_view k), (k_seq k), (k_digest k). split; [exact V|].
    destruct D as [(c' & K & C & Q)|(_ & Q)]; [|exact Q]. rewrite Q. eapply Fl, J.
  - assert (Low : c_master cfg = true -> s_stable (after cfg h es) <= n) by congruence.
    destruct (ordered_step _ _ _ _ _ _ _ _ I Low E) as (J & _ & [X|(L & k & V & (c' & K & C & Q))] & _); [left; exact X|right; right].
    split; [exact L|]. apply vouched_reported in V. exists (k_view k), (k_seq k), (k_digest k). split; [exact V|].
    rewrite Q. eapply Fl, J.
  - right. left. exists view, c. split; [reflexivity|]. unfold process_new_view_accepted in E. rewrite M in E.
    unfold seq2, emit, set_watermarks, upd in E. cbn [fst snd] in E. injection E as <- <-. reflexivity.
  - assert (L : c_master cfg = true -> s_stable (after cfg h es) <= snd caught) by congruence.
    destruct (catchup_step _ _ _ _ _ _ _ _ HF I L E) as (_ & _ & [X|(X & _)] & _); [left; exact X|congruence].
  - left. apply (marks_step cfg es _ _ EPropagatePrimaryDone _ _ I (or_introl eq_refl) E).
  - left. apply (marks_step cfg es _ _ (EBackupSetup inst) _ _ I (or_intror (ex_intro _ inst eq_refl)) E).
  - left. injection E as <- <-. reflexivity.
Qed.

(** Own checkpoints kept are never older than the stable one, and the stable one is among them;
    everything newer than it was sent to the other nodes. *)
Theorem C24_own_checkpoints : forall cfg h es, sound cfg h es -> c_master cfg = true ->
  (forall c, In c (s_own (after cfg h es)) -> s_stable (after cfg h es) <= cp_seq c) /\
  (exists c, In c (s_own (after cfg h es)) /\ cp_seq c = s_stable (after cfg h es)) /\
  (forall c, In c (s_own (after cfg h es)) -> s_stable (after cfg h es) < cp_seq c -> In (OSend c) (outputs cfg h es)) /\
  (forall c, In c (s_own (after cfg h es)) -> cp_seq c mod c_freq cfg = 0).
Proof.
  intros cfg h es Sd M. pose proof (history_inv cfg h es Sd) as I.
  refine (conj (i_low _ _ _ _ I M) (conj (i_has _ _ _ _ I M) (conj (i_sent _ _ _ _ I) (i_ofreq _ _ _ _ I)))).
Qed.

(** A checkpoint is sent only for a batch that was ordered, at a multiple of CHK_FREQ, with the
    audit root of that batch. *)
Theorem C24_sent_after_ordering : forall cfg h es c, sound cfg h es -> In (OSend c) (outputs cfg h es) ->
  cp_inst c = c_inst cfg /\ cp_seq c mod c_freq cfg = 0 /\ In (EOrdered (cp_seq c) (cp_digest c)) es.
Proof.
  intros cfg h es c. induction es as [|e es IH] using rev_ind; intros Sd X; [destruct X|].
  destruct (sound_snoc _ _ _ _ Sd) as (S1 & S2). rewrite outputs_snoc in X. apply in_app_or in X as [X|X].
  - destruct (IH S1 X) as (A & B & C). refine (conj A (conj B _)). apply in_or_app. left. exact C.
  - pose proof (history_inv cfg h es S1) as I. pose proof (proj1 Sd) as HF.
    destruct (step cfg e (after cfg h es)) as [s' o] eqn:E. cbn [snd] in X.
    assert (No : (forall c', ~ In (OSend c') o) -> cp_inst c = c_inst cfg /\ cp_seq c mod c_freq cfg = 0 /\
      In (EOrdered (cp_seq c) (cp_digest c)) (es ++ [e])) by (intros N; destruct (N c X)).
    destruct e; cbn [step] in E.
    + apply No. eapply checkpoint_step; eauto.
    + assert (Low : c_master cfg = true -> s_stable (after cfg h es) <= n).
      { intros M. simpl in S2. destruct (emitted cfg h es) as [->|(v & Y)]; [lia|]. specialize (S2 M v _ Y). lia. }
      destruct (ordered_step _ _ _ _ _ _ _ _ I Low E) as (_ & Sn & _). destruct (Sn c X) as (A & B & C & D & _).
      rewrite A, B. refine (conj C (conj D _)). apply in_or_app. right. left. reflexivity.
    + apply No. eapply new_view_step; eauto.
    + apply No. eapply catchup_step; eauto. intros M. destruct (S2 M) as (A & B).
      apply (reached_bound es); [eapply stable_reached; eauto|exact A|exact B].
    + apply No. eapply (marks_step cfg es _ _ EPropagatePrimaryDone); eauto.
    + apply No. eapply (marks_step cfg es _ _ (EBackupSetup inst)); eauto.
    + injection E as <- <-. destruct X.
Qed.

(** The events after which the master sets the low watermark to something else than the stable
    checkpoint: the end of a catch-up (see the refutation below). *)
Definition resets_watermark (e : event) : Prop :=
  match e with EPropagatePrimaryDone | EBackupSetup _ => True | _ => False end.

(** Otherwise the low watermark is the stable checkpoint and the high one LOG_SIZE above. *)
Theorem C24_watermarks_partial : forall cfg h es, sound cfg h es -> c_master cfg = true ->
  (forall e, In e es -> ~ resets_watermark e) ->
  s_low (after cfg h es) = s_stable (after cfg h es) /\
  s_high (after cfg h es) = Some (s_stable (after cfg h es) + c_log cfg).
Proof.
  intros cfg h es Sd M Nr.
  assert (G : marks_ok cfg (after cfg h es)).
  2: { destruct G as (A & B). split; [exact A|]. rewrite B, A. reflexivity. }
  induction es as [|e es IH] using rev_ind; [split; reflexivity|].
  destruct (sound_snoc _ _ _ _ Sd) as (S1 & S2). pose proof (history_inv cfg h es S1) as I. pose proof (proj1 Sd) as HF.
  assert (J : marks_ok cfg (after cfg h es)) by (apply IH; [exact S1|]; intros e' X; apply Nr, in_or_app; left; exact X).
  rewrite after_snoc. destruct (step cfg e (after cfg h es)) as [s' o] eqn:E. cbn [fst].
  assert (Nre : ~ resets_watermark e) by (apply Nr, in_or_app; right; left; reflexivity).
  destruct e; cbn [step] in E.
  - eapply checkpoint_step; eauto.
  - assert (Low : c_master cfg = true -> s_stable (after cfg h es) <= n).
    { intros _. simpl in S2. destruct (emitted cfg h es) as [->|(v & Y)]; [lia|]. specialize (S2 M v _ Y). lia. }
    eapply ordered_step; eauto.
  - eapply new_view_step; eauto.
  - eapply catchup_step; eauto. intros _. destruct (S2 M) as (A & B).
    apply (reached_bound es); [eapply stable_reached; eauto|exact A|exact B].
  - destruct (Nre Logic.I).
  - destruct (Nre Logic.I).
  - injection E as <- <-. exact J.
Qed.

(** Votes on a checkpoint at or below the stable one are never kept, so the memory for them
    does not hold the past. *)
Theorem C24_old_votes_dropped : forall cfg h es k, sound cfg h es ->
  k_seq k <= s_stable (after cfg h es) -> votes k (s_recv (after cfg h es)) = [].
Proof.
  intros cfg h es k Sd L. pose proof (history_inv cfg h es Sd) as I.
  destruct (votes k (s_recv (after cfg h es))) eqn:E; [reflexivity|].
  assert (s_stable (after cfg h es) < k_seq k); [|lia]. apply (i_above _ _ _ _ I). congruence.
Qed.

(** ** A checkpoint becomes stable as soon as it can *)

(** [x]'s vote for a checkpoint came when it was valid: of this instance, above the stable
    checkpoint, not of an old view, outside of view changes and catch-ups *)
Definition accepted (cfg : config) (h : shared) (es : list event) (view num : nat) (d : digest) (x : node) : Prop :=
  exists es1 c es2, es = es1 ++ ECheckpoint c x :: es2 /\
    cp_view c = view /\ cp_seq c = num /\ cp_digest c = d /\ cp_inst c = c_inst cfg /\
    s_stable (after cfg h es1) < num /\ sh_view (s_sh (after cfg h es1)) <= view /\
    sh_waiting (s_sh (after cfg h es1)) = false /\ sh_participating (s_sh (after cfg h es1)) = true.

Lemma settled_history cfg h es : sound cfg h es -> c_master cfg = true ->
  (forall h', In (EShared h') es -> sh_nodes h' = sh_nodes h) ->
  sh_nodes (s_sh (after cfg h es)) = sh_nodes h /\ settled_but None (after cfg h es) /\
  (forall v n d x, accepted cfg h es v n d x ->
     In x (votes (CKey v n d) (s_recv (after cfg h es))) \/ n <= s_stable (after cfg h es)) /\
  (forall c, In (OSend c) (outputs cfg h es) -> In c (s_own (after cfg h es)) \/ cp_seq c <= s_stable (after cfg h es)).
Proof.
  induction es as [|e es IH] using rev_ind; intros Sd M Hn.
  - refine (conj eq_refl (conj _ (conj _ _))).
    + intros c [<-|[]]. simpl. lia.
    + intros v n d x (es1 & c & es2 & E & _). destruct es1; discriminate.
    + intros c [].
  - destruct (sound_snoc _ _ _ _ Sd) as (S1 & S2). pose proof (history_inv cfg h es S1) as I. pose proof (proj1 Sd) as HF.
    destruct (IH S1 M) as (N & St & Ac & Sn); [intros h' X; apply Hn, in_or_app; left; exact X|].
    rewrite after_snoc, outputs_snoc. destruct (step cfg e (after cfg h es)) as [s' o] eqn:E. cbn [fst snd].
    destruct (step_settled cfg es _ _ e s' o HF M I) as (A & (B1 & B2 & B3) & C & D & F); auto.
    + destruct e; simpl; auto. rewrite N. apply Hn, in_or_app. right. left. reflexivity.
    + intros n r ->. simpl in S2. destruct (emitted cfg h es) as [->|(v & Y)]; [lia|]. specialize (S2 M v _ Y). lia.
    + intros a b ->. destruct (S2 M) as (X & Y).
      apply (reached_bound es); [eapply stable_reached; eauto|exact X|exact Y].
    + refine (conj _ (conj A (conj _ _))).
      * congruence.
      * intros v n d x (es1 & c & es2 & Ee & Q1 & Q2 & Q3 & Q4 & Q5 & Q6 & Q7 & Q8).
        destruct es2 as [|e2 es2] using rev_ind.
        -- apply app_inj_tail in Ee as (<- & ->). 
           destruct (D c x eq_refl) as [Y|Y].
           { unfold valid_checkpoint. rewrite Q1, Q2. auto. }
           ++ left. unfold checkpoint_key in Y. rewrite Q1, Q2, Q3 in Y. exact Y.
           ++ right. lia.
        -- clear IHes2. change (es1 ++ ECheckpoint c x :: es2 ++ [e2]) with (es1 ++ (ECheckpoint c x :: es2) ++ [e2]) in Ee.
           rewrite app_assoc in Ee. apply app_inj_tail in Ee as (Ee & _).
           destruct (Ac v n d x) as [Y|Y]; [exists es1, c, es2; auto 10| |right; lia].
           destruct (B2 _ _ Y) as [Z|Z]; auto.
      * intros c X. apply in_app_or in X as [X|X]; [|exact (F c X)].
        destruct (Sn c X) as [Y|Y]; [exact (B3 c Y)|right; lia].
Qed.

(** If this replica made a checkpoint and n-f-1 different nodes sent valid equal ones, in any
    order, the stable checkpoint is at least as new. *)
Theorem C24_stabilizes : forall cfg h es c names, sound cfg h es -> c_master cfg = true ->
  (forall h', In (EShared h') es -> sh_nodes h' = sh_nodes h) ->
  In (OSend c) (outputs cfg h es) ->
  NoDup names -> sh_nodes h - getMaxFailures (sh_nodes h) - 1 <= length names ->
  (forall x, In x names -> accepted cfg h es (cp_view c) (cp_seq c) (cp_digest c) x) ->
  cp_seq c <= s_stable (after cfg h es).
Proof.
  intros cfg h es c names Sd M Hn Sn Nd L A.
  destruct (settled_history cfg h es Sd M Hn) as (N & St & Ac & Own).
  destruct (Nat.le_gt_cases (cp_seq c) (s_stable (after cfg h es))) as [X|X]; [exact X|exfalso].
  destruct (Own c Sn) as [O|O]; [|lia].
  assert (Q : quorum_votes (checkpoint_key c) (after cfg h es) = false) by (apply (St c O X); discriminate).
  unfold quorum_votes, is_reached in Q. apply Nat.leb_gt in Q. rewrite N in Q.
  change (Quorum_Model.checkpoint (Quorums (sh_nodes h))) with (sh_nodes h - getMaxFailures (sh_nodes h) - 1) in Q.
  assert (length names <= length (votes (checkpoint_key c) (s_recv (after cfg h es)))); [|lia].
  apply NoDup_incl_length; [exact Nd|]. intros x Hx. destruct (Ac _ _ _ _ (A x Hx)) as [Y|Y]; [exact Y|lia].
Qed.

(** ** C44: the correct nodes agree on stable checkpoints *)

(** A pool of nodes; each has its instance's constants, shared data and events. *)
Record pool := Pool {
  nodes : list node; faulty : list node;
  cfgs : node -> config; starts : node -> shared; hist : node -> list event }.
Definition correct (p : pool) (x : node) : Prop := In x (nodes p) /\ ~ In x (faulty p).

(** At most f nodes are faulty; the correct ones count n nodes, get messages from other nodes of
    the pool only, and a message in the name of a correct node was sent by it; a correct node
    orders with one result in each place of a view (C18). *)
Definition pool_ok (p : pool) : Prop :=
  NoDup (nodes p) /\ length (faulty p) <= getMaxFailures (length (nodes p)) /\
  (forall i, correct p i -> sound (cfgs p i) (starts p i) (hist p i) /\
     sh_nodes (starts p i) = length (nodes p) /\
     (forall h', In (EShared h') (hist p i) -> sh_nodes h' = length (nodes p)) /\
     (forall c x, In (ECheckpoint c x) (hist p i) -> In x (nodes p) /\ x <> i) /\
     (forall c x, In (ECheckpoint c x) (hist p i) -> correct p x ->
        In (OSend c) (outputs (cfgs p x) (starts p x) (hist p x))) /\
     (forall c c', In (OSend c) (outputs (cfgs p i) (starts p i) (hist p i)) ->
        In (OSend c') (outputs (cfgs p i) (starts p i) (hist p i)) ->
        cp_view c = cp_view c' -> cp_seq c = cp_seq c' -> cp_digest c = cp_digest c')).

(** node [i] has a certificate for checkpoint [c]: its own checkpoint and n-f-1 equal ones *)
Definition certificate (p : pool) (i : node) (c : checkpoint) : Prop :=
  In (OSend c) (outputs (cfgs p i) (starts p i) (hist p i)) /\
  reported (hist p i) (length (nodes p) - getMaxFailures (length (nodes p)) - 1) (cp_view c) (cp_seq c) (cp_digest c).

Theorem C44_certificates_agree : forall p i j c c', pool_ok p -> correct p i -> correct p j ->
  certificate p i c -> certificate p j c' -> cp_view c = cp_view c' -> cp_seq c = cp_seq c' ->
  cp_digest c = cp_digest c'.
Proof.
  intros p i j c c' (Nd & Fb & H) Ci Cj (Si & ni & Di & Li & Ri) (Sj & nj & Dj & Lj & Rj) Ev En.
  destruct (H i Ci) as (_ & _ & _ & Oi & _). destruct (H j Cj) as (_ & _ & _ & Oj & _).
  assert (Mi : members (nodes p) (i :: ni)).
  { split.
    - apply NoDup_cons; [|exact Di]. intros X. destruct (Ri i X) as (m & Mm & _). destruct (Oi m i Mm) as (_ & Y). congruence.
    - intros x [<-|X]; [apply Ci|]. destruct (Ri x X) as (m & Mm & _). apply (Oi m x Mm). }
  assert (Mj : members (nodes p) (j :: nj)).
  { split.
    - apply NoDup_cons; [|exact Dj]. intros X. destruct (Rj j X) as (m & Mm & _). destruct (Oj m j Mm) as (_ & Y). congruence.
    - intros x [<-|X]; [apply Cj|]. destruct (Rj x X) as (m & Mm & _). apply (Oj m x Mm). }
  destruct (C17_prepare_certificates_intersect Nat.eq_dec (nodes p) (faulty p) Nd) with
    (size := Quorum_Model.checkpoint (Quorums (length (nodes p)))) (p1 := i) (p2 := j) (s1 := ni) (s2 := nj) as (x & X1 & X2 & X3); auto.
  - destruct Ci as (Ci & _). destruct (nodes p); [destruct Ci|simpl; lia].
  - simpl. auto 6.
  - apply Nat.leb_le. exact Li.
  - apply Nat.leb_le. exact Lj.
  - assert (Cx : correct p x).
    { split; [|exact X3]. destruct Mi as (_ & Mi). apply Mi, X1. }
    destruct (H x Cx) as (_ & _ & _ & _ & _ & Once).
    assert (Sx : forall k nk q, correct p k -> In x (k :: nk) ->
      In (OSend q) (outputs (cfgs p k) (starts p k) (hist p k)) ->
      (forall y, In y nk -> exists m, In (ECheckpoint m y) (hist p k) /\ cp_view m = cp_view q /\ cp_seq m = cp_seq q /\ cp_digest m = cp_digest q) ->
      exists m, In (OSend m) (outputs (cfgs p x) (starts p x) (hist p x)) /\ cp_view m = cp_view q /\ cp_seq m = cp_seq q /\ cp_digest m = cp_digest q).
    { intros k nk q Ck [->|X] Sq Rq; [exists q; auto|]. destruct (Rq x X) as (m & Mm & E). exists m. split; [|exact E].
      destruct (H k Ck) as (_ & _ & _ & _ & Au & _). apply (Au m x Mm Cx). }
    destruct (Sx i ni c Ci X1 Si Ri) as (m & Sm & A1 & A2 & A3).
    destruct (Sx j nj c' Cj X2 Sj Rj) as (m' & Sm' & B1 & B2 & B3).
    rewrite <- A3, <- B3. apply (Once m m' Sm Sm'); congruence.
Qed.

(** the votes of a prefix of the events are votes of all events *)
Lemma reported_incl es es' n v k d : incl es es' -> reported es n v k d -> reported es' n v k d.
Proof.
  intros Hi (names & D & L & R). exists names. refine (conj D (conj L _)). intros x X.
  destruct (R x X) as (c & C & E). exists c. split; [apply Hi, C|exact E].
Qed.
Lemma outputs_prefix cfg h es1 es2 : incl (outputs cfg h es1) (outputs cfg h (es1 ++ es2)).
Proof.
  induction es2 as [|e es2 IH] using rev_ind; [rewrite app_nil_r; apply incl_refl|].
  rewrite app_assoc, outputs_snoc. apply incl_appl, IH.
Qed.
Lemma nodes_const cfg h es n : sh_nodes h = n -> (forall h', In (EShared h') es -> sh_nodes h' = n) -> sound cfg h es ->
  sh_nodes (s_sh (after cfg h es)) = n.
Proof.
  intros E. induction es as [|e es IH] using rev_ind; intros H Sd; [exact E|].
  destruct (sound_snoc _ _ _ _ Sd) as (S1 & S2). pose proof (history_inv cfg h es S1) as I. pose proof (proj1 Sd) as HF.
  assert (N : sh_nodes (s_sh (after cfg h es)) = n) by (apply IH; [intros h' X; apply H, in_or_app; left; exact X|exact S1]).
  rewrite after_snoc, <- N. apply step_nodes. intros h' ->. rewrite N. apply H, in_or_app. right. left. reflexivity.
Qed.

(** In particular two correct masters which make the same checkpoint stable, by votes, in the
    same view, make it stable with the same digest. *)
Theorem C44_stable_agreement : forall p i j es1 e1 r1 es2 e2 r2, pool_ok p -> correct p i -> correct p j ->
  c_master (cfgs p i) = true -> c_master (cfgs p j) = true ->
  hist p i = es1 ++ e1 :: r1 -> hist p j = es2 ++ e2 :: r2 ->
  let stable k es := s_stable (after (cfgs p k) (starts p k) es) in
  stable i (es1 ++ [e1]) <> stable i es1 -> stable j (es2 ++ [e2]) <> stable j es2 ->
  (match e1 with ECheckpoint _ _ | EOrdered _ _ => True | _ => False end) ->
  (match e2 with ECheckpoint _ _ | EOrdered _ _ => True | _ => False end) ->
  stable i (es1 ++ [e1]) = stable j (es2 ++ [e2]) ->
  exists c c', certificate p i c /\ certificate p j c' /\
    cp_seq c = stable i (es1 ++ [e1]) /\ cp_seq c' = stable j (es2 ++ [e2]) /\
    (cp_view c = cp_view c' -> cp_digest c = cp_digest c').
Proof.
  intros p i j es1 e1 r1 es2 e2 r2 Ok Ci Cj Mi Mj Hi Hj stable Ni Nj T1 T2 Eq.
  assert (G : forall k es e r, correct p k -> c_master (cfgs p k) = true -> hist p k = es ++ e :: r ->
    stable k (es ++ [e]) <> stable k es -> (match e with ECheckpoint _ _ | EOrdered _ _ => True | _ => False end) ->
    exists c, certificate p k c /\ cp_seq c = stable k (es ++ [e])).
  { intros k es e r Ck Mk Hk Nk Tk. destruct Ok as (Nd & Fb & H). destruct (H k Ck) as (Sd & Hn & He & _).
    assert (Hk' : hist p k = (es ++ [e]) ++ r) by (rewrite Hk, <- app_assoc; reflexivity).
    assert (Sp : sound (cfgs p k) (starts p k) (es ++ [e])).
    { destruct Sd as (A & B & C). refine (conj A (conj B _)). intros a x b E. apply (C a x (b ++ r)).
      rewrite Hk', E, <- app_assoc. reflexivity. }
    assert (Vn : votes_needed (after (cfgs p k) (starts p k) es) = length (nodes p) - getMaxFailures (length (nodes p)) - 1).
    { unfold votes_needed. rewrite (nodes_const _ _ es (length (nodes p)) Hn); [reflexivity| |apply (sound_snoc _ _ _ _ Sp)].
      intros h' X. apply He. rewrite Hk. apply in_or_app. left. exact X. }
    destruct (C24_stable_moves _ _ es e Sp Mk) as [X|(L & B)]; [destruct (Nk X)|].
    assert (B' : exists c, In (OSend c) (outputs (cfgs p k) (starts p k) (es ++ [e])) /\ cp_seq c = stable k (es ++ [e]) /\
      reported (es ++ [e]) (votes_needed (after (cfgs p k) (starts p k) es)) (cp_view c) (stable k (es ++ [e])) (cp_digest c)).
    { destruct e; try contradiction; exact B. }
    destruct B' as (c & C1 & C2 & C3). exists c. split; [|exact C2]. split.
    - rewrite Hk'. apply outputs_prefix. exact C1.
    - rewrite C2, <- Vn. eapply reported_incl; [|exact C3]. rewrite Hk'. apply incl_appl, incl_refl. }
  destruct (G i es1 e1 r1 Ci Mi Hi Ni T1) as (c & C1 & C2). destruct (G j es2 e2 r2 Cj Mj Hj Nj T2) as (c' & C1' & C2').
  exists c, c'. refine (conj C1 (conj C1' (conj C2 (conj C2' _)))). intros Ev.
  apply (C44_certificates_agree p i j c c' Ok Ci Cj C1 C1' Ev). rewrite C2, C2'. exact Eq.
Qed.

(** ** Examples *)
(** (with CHK_FREQ = 2 and LOG_SIZE = 6) *)
Definition ex_cfg (m : bool) : config := Config 0 m 2 6 (fun l => length l).
Definition ex_sh (last : nat) (pps : list (nat * nat)) : shared := Shared 0 false true false (0, last) pps 4 [(0, 1)].
Definition ex_cp (n d : nat) : checkpoint := Checkpoint 0 0 0 n (Some d).

(** Four nodes; this one orders batch 2 and gets two equal Checkpoints and a wrong one. *)
Definition ex_es : list event :=
  [ECheckpoint (ex_cp 2 7) 2; EShared (ex_sh 2 [(0, 1); (0, 2)]); ECheckpoint (ex_cp 2 8) 4;
   EOrdered 2 (Some 7); ECheckpoint (ex_cp 2 7) 2].

Lemma sound_app cfg h es1 e : sound cfg h es1 -> sound_event cfg h es1 e -> sound cfg h (es1 ++ [e]).
Proof.
  intros (F & N & H) Se. refine (conj F (conj N _)). intros a x b E.
  destruct b as [|y b] using rev_ind.
  - apply app_inj_tail in E as (<- & <-). exact Se.
  - clear IHb. change (a ++ x :: b ++ [y]) with (a ++ (x :: b) ++ [y]) in E. rewrite app_assoc in E.
    apply app_inj_tail in E as (-> & _). eapply H. reflexivity.
Qed.
Lemma sound_nil cfg h : c_freq cfg <> 0 -> 2 <= sh_nodes h -> sound cfg h [].
Proof. intros F N. refine (conj F (conj N _)). intros a x b E. destruct a; discriminate. Qed.

Example C24_ex : sound (ex_cfg true) (ex_sh 0 []) (ex_es ++ [ECheckpoint (ex_cp 2 7) 3]) /\
  s_stable (after (ex_cfg true) (ex_sh 0 []) ex_es) = 0 /\
  s_stable (after (ex_cfg true) (ex_sh 0 []) (ex_es ++ [ECheckpoint (ex_cp 2 7) 3])) = 2 /\
  s_high (after (ex_cfg true) (ex_sh 0 []) (ex_es ++ [ECheckpoint (ex_cp 2 7) 3])) = Some 8.
Proof.
  split; [|vm_compute; auto].
  change (ex_es ++ [ECheckpoint (ex_cp 2 7) 3]) with
    ((((((([] ++ [ECheckpoint (ex_cp 2 7) 2]) ++ [EShared (ex_sh 2 [(0, 1); (0, 2)])]) ++ [ECheckpoint (ex_cp 2 8) 4])
       ++ [EOrdered 2 (Some 7)]) ++ [ECheckpoint (ex_cp 2 7) 2]) ++ [ECheckpoint (ex_cp 2 7) 3])).
  repeat apply sound_app; [apply sound_nil; simpl; [discriminate|lia]| | | | | |].
  all: cbn [sound_event]; try exact Logic.I.
  - simpl. lia.
  - intros _ v m X. vm_compute in X. destruct X.
Qed.

(** Finding.  The low watermark is not always the stable checkpoint, and it can go back: at the
    end of every catch-up the master sets it to the last ordered batch.  Here the replica has
    ordered 3 batches, checkpoint 2 is not stable yet, a catch-up brings nothing new and sets
    the low watermark to 3; then checkpoint 2 becomes stable, and the watermark goes from 3
    back to 2 (and the high one from 9 to 8). *)
Definition back_es : list event :=
  [EShared (ex_sh 2 [(0, 2)]); EOrdered 2 (Some 7); EShared (ex_sh 3 [(0, 3)]);
   ECatchupFinished (0, 3) (0, 3); EPropagatePrimaryDone; ECheckpoint (ex_cp 2 7) 2].
Theorem C24_watermarks_refuted : exists cfg h es e,
  sound cfg h (es ++ [e]) /\ c_master cfg = true /\
  s_low (after cfg h es) <> s_stable (after cfg h es) /\
  s_low (after cfg h (es ++ [e])) < s_low (after cfg h es).
Proof.
  exists (ex_cfg true), (ex_sh 0 []), back_es, (ECheckpoint (ex_cp 2 7) 3).
  split; [|vm_compute; split; [reflexivity|split; [discriminate|repeat constructor]]].
  change (back_es ++ [ECheckpoint (ex_cp 2 7) 3]) with
    (((((((([] ++ [EShared (ex_sh 2 [(0, 2)])]) ++ [EOrdered 2 (Some 7)]) ++ [EShared (ex_sh 3 [(0, 3)])])
       ++ [ECatchupFinished (0, 3) (0, 3)]) ++ [EPropagatePrimaryDone]) ++ [ECheckpoint (ex_cp 2 7) 2])
       ++ [ECheckpoint (ex_cp 2 7) 3])).
  repeat apply sound_app; [apply sound_nil; simpl; [discriminate|lia]| | | | | | |].
  all: cbn [sound_event]; try exact Logic.I.
  - simpl. lia.
  - intros _ v m X. vm_compute in X. destruct X.
  - simpl. lia.
  - intros _. split.
    + intros n r [X|[X|[X|[]]]]; try discriminate. injection X as <- _. cbn [snd]. lia.
    + intros a' b [X|[X|[X|[]]]]; discriminate.
Qed.

(** Hypotheses of [C24_stabilizes] and [C44_stable_agreement] are met: four nodes, node 4
    faulty, the three correct ones order batch 2 and exchange their checkpoints. *)
Definition ex_hist (i : node) : list event :=
  EShared (ex_sh 2 [(0, 1); (0, 2)]) :: ECheckpoint (ex_cp 2 8) 4 :: EOrdered 2 (Some 7) ::
  map (ECheckpoint (ex_cp 2 7)) (filter (fun x => negb (x =? i)) [1; 2; 3]).
Definition ex_pool : pool := Pool [1; 2; 3; 4] [4] (fun _ => ex_cfg true) (fun _ => ex_sh 0 []) ex_hist.

Lemma ex_sound i : In i [1; 2; 3] -> sound (ex_cfg true) (ex_sh 0 []) (ex_hist i).
Proof.
  intros [<-|[<-|[<-|[]]]].
  all: unfold ex_hist; simpl map;
    match goal with |- sound ?c ?h [?a; ?b; ?d; ?x; ?y] => change (sound c h (((((([] ++ [a]) ++ [b]) ++ [d]) ++ [x]) ++ [y]))) end;
    repeat apply sound_app; [apply sound_nil; simpl; [discriminate|lia]| | | | |];
    cbn [sound_event]; try exact Logic.I; [simpl; lia|intros _ v m X; vm_compute in X; destruct X].
Qed.

Lemma ex_outputs i : In i [1; 2; 3] ->
  outputs (ex_cfg true) (ex_sh 0 []) (ex_hist i) = [OSend (ex_cp 2 7); OUnstashWatermarks; OStabilized 0 2].
Proof. intros [<-|[<-|[<-|[]]]]; vm_compute; reflexivity. Qed.

Example C44_ex : pool_ok ex_pool /\ correct ex_pool 1 /\ correct ex_pool 2 /\
  (forall i, In i [1; 2; 3] -> certificate ex_pool i (ex_cp 2 7) /\
    s_stable (after (cfgs ex_pool i) (starts ex_pool i) (hist ex_pool i)) = 2).
Proof.
  assert (Co : forall i, correct ex_pool i <-> In i [1; 2; 3]).
  { intros i. unfold correct. simpl. split; [intros ([<-|[<-|[<-|[<-|[]]]]] & N); auto; destruct N; auto|].
    intros [<-|[<-|[<-|[]]]]; split; auto; intros [X|[]]; discriminate. }
  refine (conj _ (conj _ (conj _ _))).
  - refine (conj _ (conj _ _)).
    + simpl. repeat (apply NoDup_cons; [simpl; intuition discriminate|]). constructor.
    + simpl. vm_compute. repeat constructor.
    + intros i Ci. apply Co in Ci. refine (conj (ex_sound i Ci) (conj eq_refl (conj _ (conj _ (conj _ _))))).
      * intros h' X. destruct Ci as [<-|[<-|[<-|[]]]]; simpl in X;
          repeat (destruct X as [X|X]; [try discriminate X; injection X as <-; reflexivity|]); destruct X.
      * intros c x X. destruct Ci as [<-|[<-|[<-|[]]]]; simpl in X;
          repeat (destruct X as [X|X]; [try discriminate X; injection X as <- <-; (split; [simpl; tauto|discriminate])|]); destruct X.
      * intros c x X Cx. apply Co in Cx. simpl cfgs. simpl starts. simpl hist. rewrite (ex_outputs x Cx). left.
        assert (Nx : x <> 4) by (intros ->; simpl in Cx; intuition discriminate).
        destruct Ci as [<-|[<-|[<-|[]]]]; simpl in X;
          repeat (destruct X as [X|X]; [try discriminate X; injection X as <- <-; try reflexivity; destruct Nx; reflexivity|]); destruct X.
      * intros c c'. simpl cfgs. simpl starts. simpl hist. rewrite (ex_outputs i Ci).
        intros [X|[X|[X|[]]]] [X'|[X'|[X'|[]]]]; try discriminate. congruence.
  - apply Co. simpl. auto.
  - apply Co. simpl. auto.
  - intros i Hi. split; [split|].
    + simpl cfgs. simpl starts. simpl hist. rewrite (ex_outputs i Hi). left. reflexivity.
    + simpl hist. destruct Hi as [<-|[<-|[<-|[]]]]; [exists [2; 3]|exists [1; 3]|exists [1; 2]];
        (split; [repeat (apply NoDup_cons; [simpl; intuition discriminate|]); constructor|]);
        (split; [simpl; lia|]);
        intros x [<-|[<-|[]]]; exists (ex_cp 2 7); (split; [simpl; tauto|auto]).
    + destruct Hi as [<-|[<-|[<-|[]]]]; vm_compute; reflexivity.
Qed.

(** A backup instance: two quorums of Checkpoints it does not have move it forward. *)
Definition backup_es : list event :=
  [ECheckpoint (ex_cp 2 7) 2; ECheckpoint (ex_cp 2 7) 3; ECheckpoint (ex_cp 4 9) 2].
Example C24_backup_ex : sound (ex_cfg false) (ex_sh 0 []) (backup_es ++ [ECheckpoint (ex_cp 4 9) 3]) /\
  s_stable (after (ex_cfg false) (ex_sh 0 []) backup_es) = 0 /\
  s_stable (after (ex_cfg false) (ex_sh 0 []) (backup_es ++ [ECheckpoint (ex_cp 4 9) 3])) = 4.
Proof.
  split; [|vm_compute; auto].
  change (backup_es ++ [ECheckpoint (ex_cp 4 9) 3]) with
    (((([] ++ [ECheckpoint (ex_cp 2 7) 2]) ++ [ECheckpoint (ex_cp 2 7) 3]) ++ [ECheckpoint (ex_cp 4 9) 2])
      ++ [ECheckpoint (ex_cp 4 9) 3]).
  repeat apply sound_app; [apply sound_nil; simpl; [discriminate|lia]| | | |]; exact Logic.I.
Qed.

Print Assumptions C24_stable_moves.
Print Assumptions C24_backup_stable_moves.
Print Assumptions C24_own_checkpoints.
Print Assumptions C24_sent_after_ordering.
Print Assumptions C24_watermarks_partial.
Print Assumptions C24_watermarks_refuted.
Print Assumptions C24_old_votes_dropped.
Print Assumptions C24_stabilizes.
Print Assumptions C44_certificates_agree.
Print Assumptions C44_stable_agreement.
