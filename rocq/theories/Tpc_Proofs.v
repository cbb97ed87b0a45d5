(** Lemmas about the ordering service: each step is a chain of elementary changes, and the
    invariants of elementary changes. *)
From Coq Require Import List Arith Bool Lia.
From Verif Require Import Quorum_Model Validator_Model NewView_Model NewView_Props Tpc_Model.
Import ListNotations.

(** ** Dictionaries *)
Lemma key_eqb_eq a b : key_eqb a b = true <-> a = b.
Proof.
  unfold key_eqb. rewrite andb_true_iff, !Nat.eqb_eq. destruct a, b; simpl.
  split; [intros [-> ->]; reflexivity|intros E; injection E; auto].
Qed.
Lemma key_eqb_refl k : key_eqb k k = true.
Proof. apply key_eqb_eq. reflexivity. Qed.
Lemma key_eqb_spec a b : reflect (a = b) (key_eqb a b).
Proof. apply iff_reflect. symmetry. apply key_eqb_eq. Qed.
Lemma key_eq_dec (a b : key) : {a = b} + {a <> b}.
Proof. decide equality; apply Nat.eq_dec. Qed.

Lemma get_put {A} k k' (v : A) d : get k (put k' v d) = if key_eqb k k' then Some v else get k d.
Proof.
  induction d as [|[k1 v1] d IH]; simpl.
  - reflexivity.
  - destruct (key_eqb_spec k' k1) as [->|N]; simpl.
    + destruct (key_eqb k k1); reflexivity.
    + rewrite IH. destruct (key_eqb_spec k k1) as [->|N1]; [|reflexivity].
      destruct (key_eqb_spec k1 k'); [congruence|reflexivity].
Qed.
Lemma get_put_same {A} k (v : A) d : get k (put k v d) = Some v.
Proof. rewrite get_put, key_eqb_refl. reflexivity. Qed.
Lemma get_filter {A} (g : key -> bool) k (d : dict A) :
  get k (filter (fun p => negb (g (fst p))) d) = if g k then None else get k d.
Proof.
  induction d as [|[k1 v1] d IH]; simpl; [destruct (g k); reflexivity|].
  destruct (g k1) eqn:G; simpl.
  - rewrite IH. destruct (key_eqb_spec k k1) as [->|N]; [rewrite G; reflexivity|reflexivity].
  - rewrite IH. destruct (key_eqb_spec k k1) as [->|N]; [rewrite G; reflexivity|reflexivity].
Qed.
Lemma get_del {A} k k' (d : dict A) : get k (del k' d) = if key_eqb k' k then None else get k d.
Proof. unfold del. apply (get_filter (key_eqb k')). Qed.
Lemma get_In {A} k (v : A) d : get k d = Some v -> In (k, v) d.
Proof.
  induction d as [|[k1 v1] d IH]; simpl; [discriminate|].
  destruct (key_eqb_spec k k1) as [->|N]; [intros E; injection E as ->; auto|auto].
Qed.
Lemma in_keys {A} k (d : dict A) : In k (map fst d) <-> get k d <> None.
Proof.
  induction d as [|[k1 v1] d IH]; simpl; [tauto|].
  destruct (key_eqb_spec k k1) as [->|N]; [split; [discriminate|auto]|].
  rewrite <- IH. split; [intros [E|H]; [congruence|auto]|auto].
Qed.
Lemma has_get {A} k (d : dict A) : has k d = true <-> get k d <> None.
Proof. unfold has. destruct (get k d); split; congruence. Qed.
Lemma key_mem_In k l : key_mem k l = true <-> In k l.
Proof.
  unfold key_mem. rewrite existsb_exists. split.
  - intros (x & I & E). apply key_eqb_eq in E. subst. exact I.
  - intros I. exists k. split; [exact I|apply key_eqb_refl].
Qed.

(** ** Votes *)
Lemma voted_In x l : voted x l = true <-> In x l.
Proof.
  unfold voted. rewrite existsb_exists. split.
  - intros (y & I & E). apply Nat.eqb_eq in E. subst. exact I.
  - intros I. exists x. split; [exact I|apply Nat.eqb_refl].
Qed.
Lemma voters_add k k' x d : voters k (add_vote k' x d) =
  if key_eqb k k' then (if voted x (voters k d) then voters k d else voters k d ++ [x]) else voters k d.
Proof.
  unfold add_vote. unfold voters at 1. rewrite get_put. destruct (key_eqb_spec k k') as [->|N]; [reflexivity|].
  reflexivity.
Qed.
Lemma in_voters_add k k' x y d : In y (voters k (add_vote k' x d)) <-> In y (voters k d) \/ (k = k' /\ y = x).
Proof.
  rewrite voters_add. destruct (key_eqb_spec k k') as [->|N].
  - destruct (voted x (voters k' d)) eqn:V.
    + apply voted_In in V. split; [auto|]. intros [H|[_ ->]]; auto.
    + rewrite in_app_iff. simpl. split; [intros [H|[->|[]]]; auto|intros [H|[_ ->]]; auto].
  - split; [auto|]. intros [H|[E _]]; auto. contradiction.
Qed.
Lemma nodup_voters_add k k' x d : NoDup (voters k d) -> NoDup (voters k (add_vote k' x d)).
Proof.
  intros D. rewrite voters_add. destruct (key_eqb k k'); auto. destruct (voted x (voters k d)) eqn:V; auto.
  assert (N : ~ In x (voters k d)) by (rewrite <- voted_In, V; discriminate).
  clear V. induction (voters k d) as [|y l IH]; simpl; [repeat constructor; auto|].
  inversion D; subst. constructor.
  - rewrite in_app_iff. simpl. intros [I|[E|[]]]; [auto|]. apply N. left. symmetry. exact E.
  - apply IH; auto. intros I. apply N. right. exact I.
Qed.
Lemma voters_filter (g : key -> bool) k d :
  voters k (filter (fun p => negb (g (fst p))) d) = if g k then [] else voters k d.
Proof. unfold voters. rewrite get_filter. destruct (g k); reflexivity. Qed.
Lemma has_vote_In k x d : has_vote k x d = true <-> In x (voters k d).
Proof. apply voted_In. Qed.

(** ** Elementary changes *)
Section Micro.
  Variable cfg : config.

  Definition window (st : replica) (k : key) : Prop := fst k = r_view st /\ r_low st < snd k <= r_high st.
  Definition marks (st : replica) : nat * nat := (r_low st, r_high st).

  Lemma window_marks st st' k : r_view st' = r_view st -> marks st' = marks st -> window st k -> window st' k.
  Proof. intros V L W. injection L as L1 L2. unfold window. rewrite V, L1, L2. exact W. Qed.

  Lemma processed_window st k : processed st k = true -> window st k.
  Proof.
    unfold processed, validate_3pc, validate_base, window. simpl.
    destruct (Nat.eqb_spec (snd k) 0) as [Z|Z]; [discriminate|].
    destruct (Nat.leb_spec (snd k) (r_low st)); [discriminate|].
    destruct (Nat.ltb_spec (fst k) (r_view st)); [discriminate|].
    destruct (Nat.ltb_spec (r_view st) (fst k)); [discriminate|].
    destruct (negb (r_participating st)); [discriminate|]. destruct (r_waiting st); [discriminate|].
    destruct (Nat.ltb_spec (r_high st) (snd k)); [discriminate|]. intros _. lia.
  Qed.

  (** where a PrePrepare that is being processed comes from *)
  Definition source (evs : list event) (st : replica) (pp : pre_prepare) (x : node) (ck : checks) : Prop :=
    In (EPrePrepare pp x ck) evs \/
    x = primary cfg /\ exists pp0, In (EOldPrePrepare pp0 ck) evs /\ pp = reissue (r_view st) pp0.

  (** the queues hold, for the current view, only messages that were received *)
  Definition prep_ok (evs : list event) (v : nat) (w : dict (list (prepare_msg * node))) : Prop :=
    forall k l p x, fst k = v -> get k w = Some l -> In (p, x) l -> In (EPrepare p x) evs.
  Definition comm_ok (evs : list event) (v : nat) (w : dict (list (commit_msg * node))) : Prop :=
    forall k l c x, fst k = v -> get k w = Some l -> In (c, x) l -> In (ECommit c x) evs.

  Inductive micro (evs : list event) (st : replica) : replica -> list output -> Prop :=
  | m_prep_wait w : micro evs st (set_prep_wait st w) []
  | m_comm_wait w : micro evs st (set_comm_wait st w) []
  | m_stashed s : micro evs st (set_stashed st s) []
  | m_prepare p x pp : window st (p_key p) -> x <> primary cfg ->
      has_vote (p_key p) x (r_prepares st) = false ->
      get_preprepare st (p_key p) = Some pp -> prepare_matches p pp = true ->
      In (EPrepare p x) evs ->
      micro evs st (set_prepares st (add_vote (p_key p) x (r_prepares st))) []
  | m_own_prepare pp : window st (pp_key pp) -> me cfg <> primary cfg ->
      get (pp_key pp) (r_pps st) = Some pp ->
      has_vote (pp_key pp) (me cfg) (r_prepares st) = false ->
      micro evs st (set_prepares st (add_vote (pp_key pp) (me cfg) (r_prepares st))) [OPrepare (prepare_of pp)]
  | m_commit c x : window st (c_key c) -> has_prepared st (c_key c) = true ->
      has_vote (c_key c) x (r_commits st) = false -> bls_commit_ok st c = true ->
      In (ECommit c x) evs ->
      micro evs st (set_commits st (add_vote (c_key c) x (r_commits st))) []
  | m_own_commit k pp : window st k -> get_preprepare st k = Some pp ->
      has_quorum k (prepare (q cfg)) (r_prepares st) = true ->
      has_vote k (me cfg) (r_commits st) = false ->
      micro evs st (set_commits (prepare_batch st pp) (add_vote k (me cfg) (r_commits (prepare_batch st pp))))
            [OCommit (Commit (fst k) (snd k) (sign cfg (already_ordered st k) pp)) pp]
  | m_order k pp : get_preprepare st k = Some pp ->
      has_quorum k (commit (q cfg)) (r_commits st) = true ->
      already_ordered st k = false ->
      (1 <? snd k) && negb (all_prev_ordered st k) = false ->
      micro evs st (fst (order_3pc_key st k)) [OOrdered pp]
  | m_pp pp x ck : me cfg <> primary cfg -> processed st (pp_key pp) = true -> source evs st pp x ck ->
      can_process_pre_prepare cfg st pp x ck = true ->
      (already_ordered st (pp_key pp) = false -> ck_apply ck = true) ->
      micro evs st (raise_last_pp (preprepare_batch (set_pps st (put (pp_key pp) pp (r_pps st))) pp) (pp_seq pp)) []
  | m_sent pp x ck : me cfg = primary cfg -> processed st (pp_key pp) = true -> source evs st pp x ck ->
      can_process_pre_prepare cfg st pp x ck = true ->
      (already_ordered st (pp_key pp) = false -> ck_apply ck = true) ->
      micro evs st (add_to_sent_pre_prepares st pp) []
  | m_send tm d s t a : can_send_3pc_batch cfg st = true ->
      micro evs st (fst (send_3pc_batch cfg st tm d s t a)) (snd (send_3pc_batch cfg st tm d s t a))
  | m_stable s : micro evs st (checkpoint_stabilized cfg st s) [].

  Inductive micros (evs : list event) : replica -> replica -> list output -> Prop :=
  | ms_nil st : micros evs st st []
  | ms_cons st st1 st2 o1 o2 : micro evs st st1 o1 -> micros evs st1 st2 o2 -> micros evs st st2 (o1 ++ o2).

  Lemma micros_one evs st st1 o : micro evs st st1 o -> micros evs st st1 o.
  Proof. intros H. rewrite <- (app_nil_r o). econstructor; [exact H|constructor]. Qed.
  Lemma micros_app evs st st1 st2 o1 o2 : micros evs st st1 o1 -> micros evs st1 st2 o2 -> micros evs st st2 (o1 ++ o2).
  Proof.
    induction 1; intros H2; simpl; [exact H2|]. rewrite <- app_assoc. econstructor; eauto.
  Qed.

  Definition qok evs st := prep_ok evs (r_view st) (r_prep_wait st) /\ comm_ok evs (r_view st) (r_comm_wait st).

  (** [good]: what a function did is a chain of elementary changes *)
  Definition good (evs : list event) (st : replica) (r : replica * list output) : Prop :=
    micros evs st (fst r) (snd r) /\ r_view (fst r) = r_view st /\ marks (fst r) = marks st /\ qok evs (fst r).

  Lemma good_nil evs st : qok evs st -> good evs st (st, []).
  Proof. intros Q. split; [constructor|]. auto. Qed.
  Lemma good_seq evs st st1 o1 r : good evs st (st1, o1) -> (qok evs st1 -> good evs st1 r) ->
    good evs st (fst r, o1 ++ snd r).
  Proof.
    intros (M1 & V1 & L1 & Q1) H. destruct (H Q1) as (M2 & V2 & L2 & Q2). simpl in *.
    split; [eapply micros_app; eauto|]. simpl. split; [congruence|]. split; [congruence|exact Q2].
  Qed.
  Lemma good_one evs st st1 o : micro evs st st1 o -> r_view st1 = r_view st -> marks st1 = marks st ->
    qok evs st1 -> good evs st (st1, o).
  Proof. intros M V L Q. split; [apply micros_one; exact M|]. auto. Qed.
  Lemma good_step evs st st1 o1 r : micro evs st st1 o1 -> r_view st1 = r_view st -> marks st1 = marks st ->
    qok evs st1 -> good evs st1 r -> good evs st (fst r, o1 ++ snd r).
  Proof. intros M V L Q G. eapply good_seq; [apply good_one; eauto|auto]. Qed.
  Lemma window_good evs st r k : good evs st r -> window st k -> window (fst r) k.
  Proof. intros (_ & V & L & _) [W1 W2]. injection L as L1 L2. unfold window. rewrite V, L1, L2. auto. Qed.

  Lemma try_order_good evs st c : qok evs st ->
    good evs st (fst (fst (try_order cfg st c)), snd (fst (try_order cfg st c))).
  Proof.
    intros Q. unfold try_order, can_order.
    destruct (has_quorum (c_key c) (commit (q cfg)) (r_commits st)) eqn:K; cbn [negb]; [|apply good_nil; exact Q].
    destruct (already_ordered st (c_key c)) eqn:A; [apply good_nil; exact Q|].
    destruct ((1 <? snd (c_key c)) && negb (all_prev_ordered st (c_key c))) eqn:P.
    - apply good_one; [constructor|reflexivity|reflexivity|exact Q].
    - unfold order_3pc_key. destruct (get_preprepare st (c_key c)) as [pp|] eqn:G; [|apply good_nil; exact Q].
      simpl. pose proof (m_order evs st (c_key c) pp G K A P) as M. unfold order_3pc_key in M. rewrite G in M.
      apply good_one; [exact M|reflexivity|reflexivity|exact Q].
  Qed.

  Lemma add_to_commits_try st c x :
    add_to_commits cfg st c x =
    fst (try_order cfg (set_commits st (add_vote (c_key c) x (r_commits st))) c).
  Proof. unfold add_to_commits. destruct (try_order cfg _ c) as [[? ?] ?]. reflexivity. Qed.

  Lemma process_commit_good evs st c x : qok evs st -> In (ECommit c x) evs ->
    good evs st (process_commit cfg st c x).
  Proof.
    intros Q I. unfold process_commit.
    destruct (processed st (c_key c)) eqn:P; cbn [negb]; [|apply good_nil; exact Q].
    destruct (has_prepared st (c_key c)) eqn:HP; cbn [negb].
    2:{ apply good_one; [constructor|reflexivity|reflexivity|]. split; [apply Q|].
        intros k l c' x' Ek. simpl. rewrite get_put. destruct (key_eqb_spec k (c_key c)) as [->|N].
        - intros E. injection E as <-. rewrite in_app_iff. intros [H|[H|[]]].
          + destruct (get (c_key c) (r_comm_wait st)) as [l0|] eqn:G; [|destruct H].
            destruct Q as [_ Q]. eapply Q; eauto.
          + injection H as <- <-. exact I.
        - intros E H. destruct Q as [_ Q]. eapply Q; eauto. }
    destruct (has_vote (c_key c) x (r_commits st)) eqn:V; [apply good_nil; exact Q|].
    destruct (bls_commit_ok st c) eqn:B; cbn [negb]; [|apply good_nil; exact Q].
    rewrite add_to_commits_try. set (st1 := set_commits st _).
    pose proof (m_commit evs st c x (processed_window _ _ P) HP V B I) as M. fold st1 in M.
    assert (Q1 : qok evs st1) by exact Q.
    pose proof (try_order_good evs st1 c Q1) as G.
    pose proof (good_step evs st st1 [] _ M eq_refl eq_refl Q1 G) as R. simpl in R.
    destruct (fst (try_order cfg st1 c)). exact R.
  Qed.

  Lemma process_commits_good evs l : forall st, qok evs st -> (forall c x, In (c, x) l -> In (ECommit c x) evs) ->
    good evs st (process_commits cfg l st).
  Proof.
    induction l as [|[c x] l IH]; intros st Q H; simpl; [apply good_nil; exact Q|].
    pose proof (process_commit_good evs st c x Q (H c x (or_introl eq_refl))) as G.
    destruct (process_commit cfg st c x) as [st1 o1].
    assert (Q1 : qok evs st1) by apply G.
    pose proof (IH st1 Q1 (fun c x i => H c x (or_intror i))) as G2.
    pose proof (good_seq evs st st1 o1 _ G (fun _ => G2)) as R.
    destruct (process_commits cfg l st1). exact R.
  Qed.

  Lemma dequeue_commits_good evs st k : qok evs st -> fst k = r_view st -> good evs st (dequeue_commits cfg st k).
  Proof.
    intros Q Kv. unfold dequeue_commits. destruct (get k (r_comm_wait st)) as [l|] eqn:G; [|apply good_nil; exact Q].
    destruct (has_prepared st k); cbn [negb]; [|apply good_nil; exact Q].
    set (st1 := set_comm_wait st _).
    assert (Q1 : qok evs st1).
    { split; [apply Q|]. intros k' l' c x Ek. simpl. rewrite get_del. destruct (key_eqb k k'); [discriminate|].
      destruct Q as [_ Q]. apply Q, Ek. }
    pose proof (process_commits_good evs l st1 Q1) as G2.
    pose proof (good_step evs st st1 [] _ (m_comm_wait evs st _) eq_refl eq_refl Q1
      (G2 (fun c x => proj2 Q k l c x Kv G))) as R.
    destruct (process_commits cfg l st1). exact R.
  Qed.

  Lemma prepare_batch_fields st pp : let s := prepare_batch st pp in
    r_view s = r_view st /\ marks s = marks st /\ r_prep_wait s = r_prep_wait st /\ r_comm_wait s = r_comm_wait st.
  Proof. unfold prepare_batch. destruct (existsb _ _); simpl; auto. Qed.

  Lemma try_commit_good evs st p : qok evs st -> window st (p_key p) -> good evs st (try_commit cfg st p).
  Proof.
    intros Q W. unfold try_commit.
    destruct (has_quorum (p_key p) (prepare (q cfg)) (r_prepares st)) eqn:K; cbn [negb]; [|apply good_nil; exact Q].
    destruct (has_vote (p_key p) (me cfg) (r_commits st)) eqn:V; [apply good_nil; exact Q|].
    destruct (get_preprepare st (p_key p)) as [pp|] eqn:G; [|apply good_nil; exact Q].
    rewrite add_to_commits_try.
    pose proof (m_own_commit evs st (p_key p) pp W G K V) as M.
    change (c_key (Commit (p_view p) (p_seq p) (sign cfg (already_ordered st (p_key p)) pp))) with (p_key p).
    set (st1 := set_commits (prepare_batch st pp) _) in *.
    destruct (prepare_batch_fields st pp) as (E1 & E2 & E3 & E4).
    assert (Q1 : qok evs st1) by (unfold qok, st1; simpl; rewrite E1, E3, E4; exact Q).
    pose proof (try_order_good evs st1 (Commit (p_view p) (p_seq p) (sign cfg (already_ordered st (p_key p)) pp)) Q1) as G1.
    pose proof (good_step evs st st1 _ _ M E1 E2 Q1 G1) as R. simpl in R.
    destruct (fst (try_order cfg st1 _)). exact R.
  Qed.

  Lemma after_vote_good evs st st1 o1 p : micro evs st st1 o1 -> r_view st1 = r_view st -> marks st1 = marks st ->
    qok evs st1 -> window st (p_key p) ->
    good evs st (let (st2, o2) := dequeue_commits cfg st1 (p_key p) in
                 let (st3, o3) := try_commit cfg st2 p in (st3, o1 ++ o2 ++ o3)).
  Proof.
    intros M V L Q W.
    pose proof (dequeue_commits_good evs st1 (p_key p) Q ltac:(destruct W; congruence)) as G2.
    destruct (dequeue_commits cfg st1 (p_key p)) as [st2 o2].
    assert (W1 : window st1 (p_key p)) by (destruct W; eapply window_marks; [eassumption|eassumption|split; assumption]).
    pose proof (window_good _ _ _ _ G2 W1) as W2. simpl in W2.
    pose proof (good_seq evs st1 st2 o2 _ G2 (fun Q2 => try_commit_good evs st2 p Q2 W2)) as G3.
    destruct (try_commit cfg st2 p) as [st3 o3]. exact (good_step evs st st1 o1 _ M V L Q G3).
  Qed.

  Lemma process_prepare_good evs st p x : qok evs st -> In (EPrepare p x) evs ->
    good evs st (process_prepare cfg st p x).
  Proof.
    intros Q I. unfold process_prepare.
    destruct (processed st (p_key p)) eqn:P; cbn [negb]; [|apply good_nil; exact Q].
    destruct (Nat.eqb_spec x (primary cfg)) as [E|N]; [apply good_nil; exact Q|].
    destruct (has_vote (p_key p) x (r_prepares st)) eqn:V; [apply good_nil; exact Q|].
    assert (Enq : good evs st (enqueue_prepare st p x, [])).
    { apply good_one; [constructor|reflexivity|reflexivity|]. split; [|apply Q].
      intros k l p' x' Ek. simpl. rewrite get_put. destruct (key_eqb_spec k (p_key p)) as [->|Nk].
      - intros E. injection E as <-. rewrite in_app_iff. intros [H|[H|[]]].
        + destruct (get (p_key p) (r_prep_wait st)) as [l0|] eqn:G; [|destruct H].
          destruct Q as [Q _]. eapply Q; eauto.
        + injection H as <- <-. exact I.
      - intros E H. destruct Q as [Q _]. eapply Q; eauto. }
    destruct (get_preprepare st (p_key p)) as [pp|] eqn:G.
    - destruct (prepare_matches p pp) eqn:Mt; [|apply good_nil; exact Q].
      pose proof (processed_window _ _ P) as W.
      exact (after_vote_good evs st _ [] p (m_prepare evs st p x pp W N V G Mt I) eq_refl eq_refl Q W).
    - destruct (me cfg =? primary cfg); [destruct (p_seq p <=? r_prev_cert st)|]; auto using good_nil.
  Qed.

  Lemma process_prepares_good evs l : forall st, qok evs st -> (forall p x, In (p, x) l -> In (EPrepare p x) evs) ->
    good evs st (process_prepares cfg l st).
  Proof.
    induction l as [|[c x] l IH]; intros st Q H; simpl; [apply good_nil; exact Q|].
    pose proof (process_prepare_good evs st c x Q (H c x (or_introl eq_refl))) as G.
    destruct (process_prepare cfg st c x) as [st1 o1].
    assert (Q1 : qok evs st1) by apply G.
    pose proof (IH st1 Q1 (fun c x i => H c x (or_intror i))) as G2.
    pose proof (good_seq evs st st1 o1 _ G (fun _ => G2)) as R.
    destruct (process_prepares cfg l st1). exact R.
  Qed.

  Lemma dequeue_prepares_good evs st k : qok evs st -> fst k = r_view st -> good evs st (dequeue_prepares cfg st k).
  Proof.
    intros Q Kv. unfold dequeue_prepares. destruct (get k (r_prep_wait st)) as [l|] eqn:G; [|apply good_nil; exact Q].
    set (st1 := set_prep_wait st _).
    assert (Q1 : qok evs st1).
    { split; [|apply Q]. intros k' l' p x Ek. simpl. rewrite get_put. destruct (key_eqb k' k).
      - intros E. injection E as <-. intros [].
      - destruct Q as [Q _]. apply Q, Ek. }
    pose proof (process_prepares_good evs l st1 Q1 (fun p x => proj1 Q k l p x Kv G)) as G2.
    pose proof (good_step evs st st1 [] _ (m_prep_wait evs st _) eq_refl eq_refl Q1 G2) as R.
    destruct (process_prepares cfg l st1) as [st2 o]. simpl in R.
    assert (Q2 : qok evs st2) by apply R.
    pose proof (good_seq evs st st2 o (set_prep_wait st2 (del k (r_prep_wait st2)), []) R) as R2.
    simpl in R2. rewrite app_nil_r in R2. apply R2. intros _.
    apply good_one; [constructor|reflexivity|reflexivity|]. split; [|apply Q2].
    intros k' l' p x Ek. simpl. rewrite get_del. destruct (key_eqb k k'); [discriminate|]. destruct Q2 as [Q2 _]. apply Q2, Ek.
  Qed.

  Lemma put_pp_fields st pp : let s := raise_last_pp (preprepare_batch (set_pps st (put (pp_key pp) pp (r_pps st))) pp) (pp_seq pp) in
    r_view s = r_view st /\ marks s = marks st /\ r_prep_wait s = r_prep_wait st /\ r_comm_wait s = r_comm_wait st /\
    r_pps s = put (pp_key pp) pp (r_pps st) /\ r_prepares s = r_prepares st.
  Proof. unfold raise_last_pp, preprepare_batch. destruct (existsb _ _); simpl; auto 6. Qed.
  Lemma put_sent_fields st pp : let s := add_to_sent_pre_prepares st pp in
    r_view s = r_view st /\ marks s = marks st /\ r_prep_wait s = r_prep_wait st /\ r_comm_wait s = r_comm_wait st.
  Proof. unfold add_to_sent_pre_prepares, raise_last_pp, preprepare_batch. destruct (existsb _ _); simpl; auto 6. Qed.

  Lemma try_prepare_good evs st pp : qok evs st -> window st (pp_key pp) -> me cfg <> primary cfg ->
    get (pp_key pp) (r_pps st) = Some pp -> good evs st (try_prepare cfg st pp).
  Proof.
    intros Q W N G. unfold try_prepare. destruct (has_vote (pp_key pp) (me cfg) (r_prepares st)) eqn:V; [apply good_nil; exact Q|].
    pose proof (after_vote_good evs st _ _ (prepare_of pp) (m_own_prepare evs st pp W N G V) eq_refl eq_refl Q W) as R.
    unfold add_to_prepares. destruct (dequeue_commits cfg _ _) as [st2 o2]. destruct (try_commit cfg st2 _) as [st3 o3]. exact R.
  Qed.

  Lemma process_preprepare_good evs st pp x ck : qok evs st -> source evs st pp x ck ->
    good evs st (process_preprepare cfg st pp x ck).
  Proof.
    intros Q S0. unfold process_preprepare.
    destruct (processed st (pp_key pp)) eqn:P; cbn [negb]; [|apply good_nil; exact Q].
    destruct (can_process_pre_prepare cfg st pp x ck) eqn:C; [|apply good_nil; exact Q].
    unfold process_valid_preprepare.
    destruct (negb (already_ordered st (pp_key pp)) && negb (ck_apply ck)) eqn:A; [apply good_nil; exact Q|].
    assert (Ap : already_ordered st (pp_key pp) = false -> ck_apply ck = true).
    { intros E. rewrite E in A. simpl in A. destruct (ck_apply ck); auto. }
    pose proof (processed_window _ _ P) as W.
    assert (G1 : good evs st (if me cfg =? primary cfg then (add_to_sent_pre_prepares st pp, [])
                       else add_to_pre_prepares cfg st pp)).
    { destruct (Nat.eqb_spec (me cfg) (primary cfg)) as [E|N].
      - destruct (put_sent_fields st pp) as (E1 & E2 & E3 & E4).
        apply good_one; auto. { eapply m_sent; eauto. } unfold qok. rewrite E1, E3, E4. exact Q.
      - unfold add_to_pre_prepares. destruct (put_pp_fields st pp) as (E1 & E2 & E3 & E4 & E5 & E6).
        set (st1 := raise_last_pp _ _) in *.
        assert (Q1 : qok evs st1) by (unfold qok; rewrite E1, E3, E4; exact Q).
        pose proof (try_prepare_good evs st1 pp Q1) as T.
        assert (W1 : window st1 (pp_key pp)) by (destruct W; eapply window_marks; [eassumption|eassumption|split; assumption]).
        assert (G : get (pp_key pp) (r_pps st1) = Some pp) by (rewrite E5; apply get_put_same).
        pose proof (good_step evs st st1 [] _ (m_pp evs st pp x ck N P S0 C Ap) E1 E2 Q1 (T W1 N G)) as R.
        destruct (try_prepare cfg st1 pp). exact R. }
    destruct (if me cfg =? primary cfg then _ else _) as [st1 o1].
    assert (Q1 : qok evs st1) by apply G1.
    assert (K1 : fst (pp_key pp) = r_view st1). { destruct G1 as (_ & V & _). simpl in V. destruct W. congruence. }
    pose proof (dequeue_prepares_good evs st1 (pp_key pp) Q1 K1) as G2.
    destruct (dequeue_prepares cfg st1 (pp_key pp)) as [st2 o2].
    assert (Q2 : qok evs st2) by apply G2.
    assert (K2 : fst (pp_key pp) = r_view st2). { destruct G2 as (_ & V & _). simpl in V. congruence. }
    pose proof (dequeue_commits_good evs st2 (pp_key pp) Q2 K2) as G3.
    destruct (dequeue_commits cfg st2 (pp_key pp)) as [st3 o3].
    exact (good_seq evs st st1 o1 _ G1 (fun _ => good_seq evs st1 st2 o2 _ G2 (fun _ => G3))).
  Qed.

  Lemma stashed_loop_good evs todo : forall st last rem out st' rem' out', qok evs st ->
    stashed_loop cfg todo st last rem out = (st', rem', out') ->
    exists o, out' = out ++ o /\ good evs st (st', o).
  Proof.
    induction todo as [|[[v p] c] todo IH]; intros st last rem out st' rem' out' Q H; simpl in H.
    - injection H as <- <- <-. exists []. split; [rewrite app_nil_r; reflexivity|apply good_nil; exact Q].
    - destruct (v <? fst last); [eapply IH; eauto|].
      destruct (key_mem (v, p) (r_ordered st) || already_ordered st (c_key c)); [eapply IH; eauto|].
      destruct ((v =? fst last) && (p =? S (snd last)) || (fst last <? v) && is_lowest_commit_in_view st c); [|eapply IH; eauto].
      pose proof (try_order_good evs st c Q) as G. destruct (try_order cfg st c) as [[st1 o1] b]. simpl in G.
      assert (Q1 : qok evs st1) by apply G.
      destruct b; destruct (IH _ _ _ _ _ _ _ Q1 H) as (o & -> & G2); exists (o1 ++ o);
        (split; [rewrite app_assoc; reflexivity|]); exact (good_seq evs st st1 o1 _ G (fun _ => G2)).
  Qed.

  Lemma tick_good evs st : qok evs st -> good evs st (process_stashed_out_of_order_commits cfg st).
  Proof.
    intros Q. unfold process_stashed_out_of_order_commits.
    destruct (r_participating st); cbn [negb]; [|apply good_nil; exact Q].
    destruct (stashed_loop cfg (r_stashed st) st (r_last_ordered st) [] []) as [[st' rem] out] eqn:E.
    apply (stashed_loop_good evs) in E as (o & -> & G); [|exact Q].
    assert (Q1 : qok evs st') by apply G.
    pose proof (good_seq evs st st' o (set_stashed st' (filter (fun p => negb (key_mem (fst p) rem)) (r_stashed st')), []) G) as R.
    simpl in R. rewrite app_nil_r in R. apply R. intros _. apply good_one; [constructor|reflexivity|reflexivity|exact Q1].
  Qed.

  Lemma qok_mono evs evs' st : incl evs evs' -> qok evs st -> qok evs' st.
  Proof. intros I [Q1 Q2]. split; intros k l m x Ek G H; apply I; eauto. Qed.
  Lemma source_mono evs evs' st pp x ck : incl evs evs' -> source evs st pp x ck -> source evs' st pp x ck.
  Proof. intros I [H|(E & p0 & H & E2)]; [left; auto|right; split; auto; exists p0; auto]. Qed.
  Lemma micro_mono evs evs' st st' o : incl evs evs' -> micro evs st st' o -> micro evs' st st' o.
  Proof.
    intros I H. destruct H; try (econstructor; eauto; fail).
    - eapply m_pp; eauto using source_mono.
    - eapply m_sent; eauto using source_mono.
  Qed.
  Lemma micros_mono evs evs' st st' o : incl evs evs' -> micros evs st st' o -> micros evs' st st' o.
  Proof. intros I. induction 1; econstructor; eauto using micro_mono. Qed.

  Lemma step_micros evs st e : qok evs st -> In e evs ->
    micros evs st (fst (step cfg st e)) (snd (step cfg st e)) /\ r_view (fst (step cfg st e)) = r_view st
    /\ qok evs (fst (step cfg st e)).
  Proof.
    intros Q I. destruct e as [pp x ck|pp ck|p x|c x|tm d s t a| |k]; simpl.
    - destruct (process_preprepare_good evs st pp x ck Q (or_introl I)) as (A & B & _ & C). auto.
    - assert (S0 : source evs st (reissue (r_view st) pp) (primary cfg) ck) by (right; split; [reflexivity|exists pp; auto]).
      destruct (process_preprepare_good evs st _ _ ck Q S0) as (A & B & _ & C). auto.
    - destruct (process_prepare_good evs st p x Q I) as (A & B & _ & C). auto.
    - destruct (process_commit_good evs st c x Q I) as (A & B & _ & C). auto.
    - destruct (can_send_3pc_batch cfg st) eqn:C.
      + pose proof (m_send evs st tm d s t a C) as M. unfold send_3pc_batch in *. rewrite C in *. simpl in *.
        destruct (put_sent_fields st {| pp_view := r_view st; pp_seq := S (r_last_pp st); pp_time := tm; pp_dig := d;
                   pp_orig_view := r_view st; pp_state_root := s; pp_txn_root := t;
                   pp_audit_root := a |}) as (E1 & E2 & E3 & E4).
        refine (conj (micros_one _ _ _ _ M) (conj E1 _)). unfold qok. rewrite E1, E3, E4. exact Q.
      + unfold send_3pc_batch. rewrite C. simpl. refine (conj _ (conj eq_refl Q)). constructor.
    - destruct (tick_good evs st Q) as (A & B & _ & C). auto.
    - refine (conj (micros_one _ _ _ _ (m_stable evs st k)) _). unfold checkpoint_stabilized.
      destruct (_ || _); simpl; auto.
  Qed.

  Lemma run_micros evs : forall es st, qok evs st -> incl es evs ->
    micros evs st (fst (run cfg st es)) (snd (run cfg st es)).
  Proof.
    induction es as [|e es IH]; intros st Q I; simpl; [constructor|].
    destruct (step_micros evs st e Q (I e (or_introl eq_refl))) as (M & V & Q1).
    destruct (step cfg st e) as [st1 o1]. simpl in *.
    pose proof (IH st1 Q1 (fun x i => I x (or_intror i))) as M2.
    destruct (run cfg st1 es) as [st2 o2]. simpl in *. eapply micros_app; eauto.
  Qed.
End Micro.

(** ** The order of batches *)
Section Order.
  Variable cfg : config.

  Record inv (st : replica) : Prop := {
    i_pps : forall k pp, get k (r_pps st) = Some pp -> pp_key pp = k /\ fst k = r_view st /\ 1 <= snd k <= r_last_pp st;
    i_sent : forall k pp, get k (r_sent st) = Some pp -> pp_key pp = k /\ fst k = r_view st /\ 1 <= snd k <= r_last_pp st;
    i_cover : forall t, snd (r_last_ordered st) < t <= r_last_pp st -> get_preprepare st (r_view st, t) <> None;
    i_ordered : forall k, In k (r_ordered st) -> fst k = r_view st -> snd k <= snd (r_last_ordered st);
    i_last : snd (r_last_ordered st) <= r_last_pp st;
    i_low : r_low st <= snd (r_last_ordered st) }.

  Lemma get_preprepare_key st k pp : inv st -> get_preprepare st k = Some pp ->
    pp_key pp = k /\ fst k = r_view st /\ 1 <= snd k <= r_last_pp st.
  Proof.
    intros I. unfold get_preprepare. destruct (get k (r_sent st)) as [p|] eqn:E.
    - intros H. injection H as ->. apply (i_sent st I k pp E).
    - intros H. apply (i_pps st I k pp H).
  Qed.

  Lemma last_item_none d : last_item d = None -> d = [].
  Proof.
    destruct d as [|[k v] d]; simpl; auto. destruct (last_item d); [destruct (key_ltb _ _)|]; discriminate.
  Qed.
  Lemma last_item_max v d : (forall k, In k (map fst d) -> fst k = v) -> forall k, last_item d = Some k ->
    In k (map fst d) /\ forall k', In k' (map fst d) -> snd k' <= snd k.
  Proof.
    induction d as [|[k1 p1] d IH]; simpl; [discriminate|]. intros H k.
    assert (H' : forall k, In k (map fst d) -> fst k = v) by auto.
    specialize (IH H'). destruct (last_item d) as [k2|] eqn:E.
    - destruct (IH k2 eq_refl) as [I M]. unfold key_ltb. rewrite (H' k2 I), (H k1 (or_introl eq_refl)).
      rewrite Nat.ltb_irrefl, Nat.eqb_refl. simpl. destruct (Nat.ltb_spec (snd k2) (snd k1)) as [L|L].
      + intros X. injection X as <-. split; auto. intros k' [<-|I']; [lia|]. specialize (M k' I'). lia.
      + intros X. injection X as <-. split; auto. intros k' [<-|I']; [lia|]. auto.
    - intros X. injection X as <-. split; auto. apply last_item_none in E. subst d. intros k' [<-|[]]. lia.
  Qed.

  Lemma last_pp_3pc_is st : inv st -> snd (last_pp_3pc st) = r_last_pp st.
  Proof.
    intros I.
    assert (Vs : forall k, In k (map fst (r_sent st)) -> fst k = r_view st).
    { intros k H. apply in_keys in H. destruct (get k (r_sent st)) as [p|] eqn:E; [|congruence]. apply (i_sent st I k p E). }
    assert (Vp : forall k, In k (map fst (r_pps st)) -> fst k = r_view st).
    { intros k H. apply in_keys in H. destruct (get k (r_pps st)) as [p|] eqn:E; [|congruence]. apply (i_pps st I k p E). }
    assert (Bs : forall k, In k (map fst (r_sent st)) -> 1 <= snd k <= r_last_pp st).
    { intros k H. apply in_keys in H. destruct (get k (r_sent st)) as [p|] eqn:E; [|congruence]. apply (i_sent st I k p E). }
    assert (Bp : forall k, In k (map fst (r_pps st)) -> 1 <= snd k <= r_last_pp st).
    { intros k H. apply in_keys in H. destruct (get k (r_pps st)) as [p|] eqn:E; [|congruence]. apply (i_pps st I k p E). }
    pose proof (i_last st I) as L.
    assert (C : snd (r_last_ordered st) < r_last_pp st ->
                In (r_view st, r_last_pp st) (map fst (r_sent st)) \/ In (r_view st, r_last_pp st) (map fst (r_pps st))).
    { intros H. pose proof (i_cover st I (r_last_pp st) ltac:(lia)) as G. unfold get_preprepare in G.
      destruct (get _ (r_sent st)) eqn:E; [left; apply in_keys; congruence|right; apply in_keys; exact G]. }
    unfold last_pp_3pc, last_preprepare, lt_3pc.
    destruct (last_item (r_sent st)) as [s|] eqn:Es; destruct (last_item (r_pps st)) as [p|] eqn:Ep.
    - apply (last_item_max _ _ Vs) in Es as [Is Ms]. apply (last_item_max _ _ Vp) in Ep as [Ip Mp].
      pose proof (Bs s Is). pose proof (Bp p Ip).
      destruct (Nat.ltb_spec (snd s) (snd p)) as [X|X].
      + destruct (Nat.ltb_spec (snd (r_last_ordered st)) (snd p)) as [Y|Y].
        * destruct C as [C|C]; [lia|specialize (Ms _ C)|specialize (Mp _ C)]; simpl in *; lia.
        * destruct (Nat.eq_dec (snd (r_last_ordered st)) (r_last_pp st)); auto.
          destruct C as [C|C]; [lia|specialize (Ms _ C)|specialize (Mp _ C)]; simpl in *; lia.
      + destruct (Nat.ltb_spec (snd (r_last_ordered st)) (snd s)) as [Y|Y].
        * destruct C as [C|C]; [lia|specialize (Ms _ C)|specialize (Mp _ C)]; simpl in *; lia.
        * destruct (Nat.eq_dec (snd (r_last_ordered st)) (r_last_pp st)); auto.
          destruct C as [C|C]; [lia|specialize (Ms _ C)|specialize (Mp _ C)]; simpl in *; lia.
    - apply (last_item_max _ _ Vs) in Es as [Is Ms]. apply last_item_none in Ep. rewrite Ep in C. simpl in C.
      pose proof (Bs s Is).
      destruct (Nat.ltb_spec (snd (r_last_ordered st)) (snd s)) as [Y|Y].
      + destruct C as [C|[]]; [lia|specialize (Ms _ C)]; simpl in *; lia.
      + destruct (Nat.eq_dec (snd (r_last_ordered st)) (r_last_pp st)); auto.
        destruct C as [C|[]]; [lia|specialize (Ms _ C)]; simpl in *; lia.
    - apply (last_item_max _ _ Vp) in Ep as [Ip Mp]. apply last_item_none in Es. rewrite Es in C. simpl in C.
      pose proof (Bp p Ip). simpl. destruct (Nat.ltb_spec 0 (snd p)) as [Z|Z]; [|lia].
      destruct (Nat.ltb_spec (snd (r_last_ordered st)) (snd p)) as [Y|Y].
      + destruct C as [[]|C]; [lia|specialize (Mp _ C)]; simpl in *; lia.
      + destruct (Nat.eq_dec (snd (r_last_ordered st)) (r_last_pp st)); auto.
        destruct C as [[]|C]; [lia|specialize (Mp _ C)]; simpl in *; lia.
    - apply last_item_none in Es. apply last_item_none in Ep. rewrite Es, Ep in C. simpl in C.
      destruct (Nat.eq_dec (snd (r_last_ordered st)) (r_last_pp st)); auto. destruct C as [[]|[]]. lia.
  Qed.

  (** the fields that recording a PrePrepare leaves alone *)
  Lemma raise_fields st pp : let s := raise_last_pp (preprepare_batch st pp) (pp_seq pp) in
    r_view s = r_view st /\ r_low s = r_low st /\ r_last_ordered s = r_last_ordered st /\
    r_prev_cert s = r_prev_cert st /\ r_sent s = r_sent st /\ r_pps s = r_pps st /\
    r_prepares s = r_prepares st /\ r_commits s = r_commits st /\ r_ordered s = r_ordered st /\
    r_last_pp s = Nat.max (r_last_pp st) (pp_seq pp) /\ r_prepared s = r_prepared st.
  Proof.
    assert (M : forall a b, (if a <? b then b else a) = Nat.max a b).
    { intros a b. destruct (Nat.ltb_spec a b); lia. }
    unfold raise_last_pp, preprepare_batch. destruct (existsb _ _); simpl; rewrite M; auto 12.
  Qed.

  Lemma can_process_next st pp x ck : inv st -> window st (pp_key pp) ->
    can_process_pre_prepare cfg st pp x ck = true ->
    pp_seq pp <= snd (r_last_ordered st) \/
    (snd (r_last_ordered st) < pp_seq pp /\ x = primary cfg /\ get (pp_key pp) (r_pps st) = None /\
     (pp_seq pp = S (r_last_pp st) \/ (pp_seq pp = 1 /\ r_last_pp st = 1))).
  Proof.
    intros I W. unfold can_process_pre_prepare, already_ordered, has_already_ordered, le_3pc. simpl.
    destruct (Nat.leb_spec (pp_seq pp) (snd (r_last_ordered st))) as [L|L]; [auto|].
    destruct (ck_digest ck); cbn [negb]; [|discriminate].
    destruct (Nat.eqb_spec x (primary cfg)) as [E|N]; cbn [negb]; [|discriminate].
    destruct (has (pp_key pp) (r_pps st)) eqn:H; [discriminate|].
    destruct (ck_time ck); cbn [negb]; [|discriminate].
    unfold lt_3pc. rewrite (last_pp_3pc_is st I). simpl.
    destruct (Nat.ltb_spec (pp_seq pp) (r_last_pp st)) as [L2|L2]; [discriminate|].
    destruct (ck_requests ck); cbn [negb]; [|discriminate].
    unfold is_next_pre_prepare. rewrite (last_pp_3pc_is st I). simpl.
    intros C. right. split; [exact L|]. split; [exact E|]. split.
    { unfold has in H. destruct (get (pp_key pp) (r_pps st)); [discriminate|reflexivity]. }
    destruct (Nat.eqb_spec (pp_seq pp) 1) as [E1|N1].
    - pose proof (i_last st I). destruct (r_last_pp st) as [|[|l]]; [left|right|]; lia.
    - destruct (Nat.eqb_spec (pp_seq pp) (S (r_last_pp st))); [left; assumption|discriminate].
  Qed.

  Lemma inv_put_pps st pp x ck : inv st -> window st (pp_key pp) ->
    can_process_pre_prepare cfg st pp x ck = true ->
    inv (raise_last_pp (preprepare_batch (set_pps st (put (pp_key pp) pp (r_pps st))) pp) (pp_seq pp)).
  Proof.
    intros I W C. destruct (raise_fields (set_pps st (put (pp_key pp) pp (r_pps st))) pp)
      as (F1 & F2 & F3 & F4 & F5 & F6 & F7 & F8 & F9 & F10 & F11).
    set (s := raise_last_pp _ _) in *. clearbody s. simpl in *.
    pose proof (can_process_next st pp x ck I W C) as N. destruct W as [Wv Wl]. simpl in Wv, Wl.
    pose proof (i_last st I) as Il. pose proof (i_low st I) as Iw.
    constructor; rewrite ?F1, ?F2, ?F3, ?F5, ?F6, ?F9, ?F10.
    - intros k p. rewrite get_put. destruct (key_eqb_spec k (pp_key pp)) as [->|Nk].
      + intros E. injection E as <-. simpl. split; [reflexivity|]. split; [exact Wv|lia].
      + intros E. destruct (i_pps st I k p E) as (A & B & D). split; [exact A|]. split; [exact B|lia].
    - intros k p E. destruct (i_sent st I k p E) as (A & B & D). split; [exact A|]. split; [exact B|lia].
    - intros t T. unfold get_preprepare. rewrite F5, F6, get_put.
      destruct (get (r_view st, t) (r_sent st)) eqn:G1; [discriminate|].
      destruct (key_eqb_spec (r_view st, t) (pp_key pp)) as [E|Nk]; [discriminate|].
      assert (Nt : t <> pp_seq pp) by (intros ->; apply Nk; unfold pp_key; congruence).
      assert (T' : snd (r_last_ordered st) < t <= r_last_pp st) by lia.
      pose proof (i_cover st I t T') as G. unfold get_preprepare in G. rewrite G1 in G. exact G.
    - apply (i_ordered st I).
    - lia.
    - exact Iw.
  Qed.

  Lemma inv_put_sent st pp : inv st -> (fst (pp_key pp) = r_view st /\ r_low st < snd (pp_key pp)) ->
    pp_seq pp <= r_last_pp st \/ pp_seq pp = S (r_last_pp st) ->
    inv (add_to_sent_pre_prepares st pp).
  Proof.
    intros I W N. unfold add_to_sent_pre_prepares.
    destruct (raise_fields (set_sent st (put (pp_key pp) pp (r_sent st))) pp)
      as (F1 & F2 & F3 & F4 & F5 & F6 & F7 & F8 & F9 & F10 & F11).
    set (s := raise_last_pp _ _) in *. clearbody s. simpl in *.
    destruct W as [Wv Wl]. simpl in Wv, Wl.
    pose proof (i_last st I) as Il. pose proof (i_low st I) as Iw.
    constructor; rewrite ?F1, ?F2, ?F3, ?F5, ?F6, ?F9, ?F10.
    - intros k p E. destruct (i_pps st I k p E) as (A & B & D). split; [exact A|]. split; [exact B|lia].
    - intros k p. rewrite get_put. destruct (key_eqb_spec k (pp_key pp)) as [->|Nk].
      + intros E. injection E as <-. simpl. split; [reflexivity|]. split; [exact Wv|lia].
      + intros E. destruct (i_sent st I k p E) as (A & B & D). split; [exact A|]. split; [exact B|lia].
    - intros t T. unfold get_preprepare. rewrite F5, F6, get_put.
      destruct (key_eqb_spec (r_view st, t) (pp_key pp)) as [E|Nk]; [discriminate|].
      assert (Nt : t <> pp_seq pp) by (intros ->; apply Nk; unfold pp_key; congruence).
      assert (T' : snd (r_last_ordered st) < t <= r_last_pp st) by lia.
      exact (i_cover st I t T').
    - apply (i_ordered st I).
    - lia.
    - exact Iw.
  Qed.

  Lemma inv_same st st' : inv st -> r_view st' = r_view st -> r_low st' = r_low st ->
    r_last_ordered st' = r_last_ordered st -> r_sent st' = r_sent st -> r_pps st' = r_pps st ->
    r_ordered st' = r_ordered st -> r_last_pp st' = r_last_pp st -> inv st'.
  Proof.
    intros I E1 E2 E3 E4 E5 E6 E7. destruct I as [A B C D E F].
    constructor; unfold get_preprepare in *; rewrite ?E1, ?E2, ?E3, ?E4, ?E5, ?E6, ?E7; assumption.
  Qed.

  Lemma order_next st k pp : inv st -> get_preprepare st k = Some pp -> already_ordered st k = false ->
    (1 <? snd k) && negb (all_prev_ordered st k) = false ->
    fst k = r_view st /\ snd k = S (snd (r_last_ordered st)).
  Proof.
    intros I G A P. destruct (get_preprepare_key st k pp I G) as (Kk & Kv & Kr). split; [exact Kv|].
    unfold already_ordered, has_already_ordered, le_3pc in A. simpl in A. apply Nat.leb_gt in A.
    destruct (Nat.ltb_spec 1 (snd k)) as [L|L]; [|lia]. simpl in P. apply negb_false_iff in P.
    unfold all_prev_ordered in P.
    destruct (Nat.eqb_spec (snd (r_last_ordered st)) (snd k - 1)) as [E|N]; [lia|].
    assert (C : get_preprepare st (r_view st, S (snd (r_last_ordered st))) <> None) by (apply (i_cover st I); lia).
    rewrite forallb_forall in P. specialize (P (r_view st, S (snd (r_last_ordered st)))).
    assert (In (r_view st, S (snd (r_last_ordered st))) (map fst (r_sent st) ++ map fst (r_pps st)
                     ++ map fst (r_prepares st) ++ map fst (r_commits st))) as J.
    { rewrite !in_app_iff. unfold get_preprepare in C. destruct (get _ (r_sent st)) eqn:E.
      - left. apply in_keys. congruence.
      - right. left. apply in_keys. exact C. }
    specialize (P J). simpl in P. rewrite Kv, Nat.ltb_irrefl, Nat.eqb_refl in P. simpl in P.
    destruct (Nat.ltb_spec (S (snd (r_last_ordered st))) (snd k)) as [L2|L2]; [|lia]. simpl in P.
    destruct (key_mem (r_view st, S (snd (r_last_ordered st))) (r_ordered st)) eqn:M; [|discriminate].
    apply key_mem_In in M. pose proof (i_ordered st I _ M eq_refl) as X. simpl in X. lia.
  Qed.

  (** the keys a stable checkpoint removes *)
  Definition gone (st : replica) (s : nat) (k : key) : bool :=
    key_mem k (filter (fun k : key => snd k <=? s) (map fst (r_sent st) ++ map fst (r_pps st))).
  Lemma gone_le st s k : gone st s k = true -> snd k <= s.
  Proof. intros G. apply key_mem_In in G. apply filter_In in G as [_ G]. apply Nat.leb_le, G. Qed.
  Lemma stable_fields st s : s <= snd (r_last_ordered st) -> r_low st <= s ->
    let st' := checkpoint_stabilized cfg st s in
    r_view st' = r_view st /\ r_low st' = s /\ r_last_ordered st' = r_last_ordered st /\
    r_prev_cert st' = r_prev_cert st /\
    r_sent st' = filter (fun p => negb (gone st s (fst p))) (r_sent st) /\
    r_pps st' = filter (fun p => negb (gone st s (fst p))) (r_pps st) /\
    r_prepares st' = filter (fun p => negb (gone st s (fst p))) (r_prepares st) /\
    r_commits st' = filter (fun p => negb (gone st s (fst p))) (r_commits st) /\
    r_ordered st' = r_ordered st /\ r_last_pp st' = r_last_pp st.
  Proof.
    intros L L'. unfold checkpoint_stabilized. destruct (Nat.ltb_spec (snd (r_last_ordered st)) s); [lia|].
    destruct (Nat.ltb_spec s (r_low st)); [lia|].
    simpl. auto 12.
  Qed.

  Lemma stable_cases st s : checkpoint_stabilized cfg st s = st \/ (s <= snd (r_last_ordered st) /\ r_low st <= s).
  Proof.
    unfold checkpoint_stabilized. destruct (Nat.ltb_spec (snd (r_last_ordered st)) s); [left; reflexivity|].
    destruct (Nat.ltb_spec s (r_low st)); [left; reflexivity|]. right. lia.
  Qed.

  (** what an elementary change does to the last ordered batch *)
  Lemma micro_inv evs st st' o : inv st -> micro cfg evs st st' o ->
    inv st' /\ r_view st' = r_view st /\
    (forall pp, In (OOrdered pp) o ->
       o = [OOrdered pp] /\ pp_view pp = r_view st /\ pp_seq pp = S (snd (r_last_ordered st)) /\
       r_last_ordered st' = pp_key pp) /\
    ((forall pp, ~ In (OOrdered pp) o) -> r_last_ordered st' = r_last_ordered st).
  Proof.
    intros I M. destruct M.
    - split; [eapply inv_same; eauto|]. split; [reflexivity|]. split; [intros pp []|reflexivity].
    - split; [eapply inv_same; eauto|]. split; [reflexivity|]. split; [intros pp []|reflexivity].
    - split; [eapply inv_same; eauto|]. split; [reflexivity|]. split; [intros pp []|reflexivity].
    - split; [eapply inv_same; eauto|]. split; [reflexivity|]. split; [intros pp' []|reflexivity].
    - split; [eapply inv_same; eauto|]. split; [reflexivity|]. split; [intros pp' [E|[]]; discriminate|reflexivity].
    - split; [eapply inv_same; eauto|]. split; [reflexivity|]. split; [intros pp' []|reflexivity].
    - assert (F : forall A (f : replica -> A), (forall l, f (set_prepared st l) = f st) -> f (prepare_batch st pp) = f st).
      { intros A f Hf. unfold prepare_batch. destruct (existsb _ _); auto. }
      split; [|split; [|split]].
      + eapply inv_same; [exact I| | | | | | |]; simpl; apply F; reflexivity.
      + simpl. apply F. reflexivity.
      + intros pp' [E|[]]. discriminate.
      + intros _. simpl. apply F. reflexivity.
    - destruct (order_next st k pp I H H1 H2) as [Kv Ks].
      destruct (get_preprepare_key st k pp I H) as (Kk & _ & Kr).
      unfold order_3pc_key. rewrite H. simpl.
      split; [|split; [reflexivity|split]].
      + constructor; simpl.
        * intros k' p' E. destruct (i_pps st I k' p' E) as (A & B & C). split; [exact A|]. split; [exact B|].
          destruct (Nat.ltb_spec (r_last_pp st) (snd k)); lia.
        * intros k' p' E. destruct (i_sent st I k' p' E) as (A & B & C). split; [exact A|]. split; [exact B|].
          destruct (Nat.ltb_spec (r_last_pp st) (snd k)); lia.
        * intros t T. apply (i_cover st I t). destruct (Nat.ltb_spec (r_last_pp st) (snd k)); lia.
        * intros k' [<-|J] Ev; [lia|]. pose proof (i_ordered st I k' J Ev). lia.
        * destruct (Nat.ltb_spec (r_last_pp st) (snd k)); lia.
        * pose proof (i_low st I). lia.
      + intros pp' [E|[]]. injection E as <-. split; [reflexivity|]. rewrite Kk. subst k. simpl in *. auto.
      + intros X. exfalso. apply (X pp). left. reflexivity.
    - split; [eapply inv_put_pps; eauto using processed_window|].
      destruct (raise_fields (set_pps st (put (pp_key pp) pp (r_pps st))) pp) as (F1 & F2 & F3 & _).
      split; [exact F1|]. split; [intros pp' []|intros _; exact F3].
    - pose proof (can_process_next st pp x ck I (processed_window _ _ H0) H2) as N. pose proof (i_last st I).
      split; [apply inv_put_sent; [exact I|destruct (processed_window _ _ H0); lia|]; destruct N as [N|(N1 & N2 & N3 & [N4|[N4 N5]])]; lia|].
      unfold add_to_sent_pre_prepares.
      destruct (raise_fields (set_sent st (put (pp_key pp) pp (r_sent st))) pp) as (F1 & F2 & F3 & _).
      split; [exact F1|]. split; [intros pp' []|intros _; exact F3].
    - unfold send_3pc_batch. rewrite H. simpl. pose proof (i_last st I). pose proof (i_low st I).
      split; [apply inv_put_sent; [exact I|split; simpl; lia|right; reflexivity]|].
      unfold add_to_sent_pre_prepares.
      match goal with |- context [preprepare_batch ?s ?p] => destruct (raise_fields s p) as (F1 & F2 & F3 & _) end.
      split; [exact F1|]. split; [intros pp' [E|[]]; discriminate|intros _; exact F3].
    - destruct (stable_cases st s) as [L|[L L2]].
      { rewrite L. split; [exact I|]. split; [reflexivity|]. split; [intros pp []|reflexivity]. }
      destruct (stable_fields st s L L2) as (F1 & F2 & F3 & F4 & F5 & F6 & F7 & F8 & F9 & F10).
      set (st' := checkpoint_stabilized cfg st s) in *. clearbody st'.
      split; [|split; [exact F1|split; [intros pp []|intros _; exact F3]]].
      constructor; rewrite ?F1, ?F2, ?F3, ?F5, ?F6, ?F9, ?F10.
      + intros k p. rewrite get_filter. destruct (gone st s k); [discriminate|]. apply (i_pps st I).
      + intros k p. rewrite get_filter. destruct (gone st s k); [discriminate|]. apply (i_sent st I).
      + intros t T. unfold get_preprepare. rewrite F5, F6, !get_filter.
        destruct (gone st s (r_view st, t)) eqn:G; [apply gone_le in G; simpl in G; lia|]. exact (i_cover st I t T).
      + apply (i_ordered st I).
      + apply (i_last st I).
      + exact L.
  Qed.
End Order.
