(** Lemmas about the checkpoint service. *)
From Coq Require Import List Arith Bool Lia.
From Verif Require Import Quorum_Model Quorum_Props Validator_Model Checkpoint_Model.
Import ListNotations.

(** ** Equality tests *)
Lemma digest_eqb_eq a b : digest_eqb a b = true <-> a = b.
Proof.
  destruct a, b; simpl; try (split; congruence). rewrite Nat.eqb_eq. split; congruence.
Qed.
Lemma ckey_eqb_eq a b : ckey_eqb a b = true <-> a = b.
Proof.
  destruct a, b. unfold ckey_eqb. simpl. rewrite !andb_true_iff, !Nat.eqb_eq, digest_eqb_eq.
  split; [intros ((-> & ->) & ->); reflexivity|injection 1; auto].
Qed.
Lemma ckey_eqb_refl a : ckey_eqb a a = true.
Proof. apply ckey_eqb_eq. reflexivity. Qed.
Lemma cp_eqb_eq a b : cp_eqb a b = true <-> a = b.
Proof.
  destruct a, b. unfold cp_eqb. simpl. rewrite !andb_true_iff, !Nat.eqb_eq, digest_eqb_eq.
  split; [intros ((((-> & ->) & ->) & ->) & ->); reflexivity|injection 1; auto].
Qed.

(** ** The received votes *)
Lemma votes_app_nil k k' r : votes k' (r ++ [(k, [])]) = votes k' r.
Proof.
  unfold votes. induction r as [|e r IH]; simpl.
  - destruct (ckey_eqb k k'); reflexivity.
  - destruct (ckey_eqb (fst e) k'); auto.
Qed.
Lemma votes_touch k k' r : votes k' (touch k r) = votes k' r.
Proof. unfold touch. destruct (existsb _ r); [reflexivity|apply votes_app_nil]. Qed.
Lemma votes_map k x k' r :
  votes k' (map (fun e : ckey * list node => if ckey_eqb (fst e) k then (fst e, set_add x (snd e)) else e) r) =
  if ckey_eqb k' k && existsb (fun e => ckey_eqb (fst e) k) r then set_add x (votes k' r) else votes k' r.
Proof.
  unfold votes. induction r as [|e r IH]; simpl; [rewrite andb_false_r; reflexivity|].
  destruct (ckey_eqb (fst e) k) eqn:E; simpl.
  - apply ckey_eqb_eq in E. rewrite E. destruct (ckey_eqb k k') eqn:E2; simpl.
    + apply ckey_eqb_eq in E2. subst k'. rewrite ckey_eqb_refl. reflexivity.
    + assert (N : ckey_eqb k' k = false).
      { destruct (ckey_eqb k' k) eqn:E3; [|reflexivity]. apply ckey_eqb_eq in E3. subst. rewrite ckey_eqb_refl in E2. congruence. }
      rewrite N in *. simpl in *. exact IH.
  - destruct (ckey_eqb (fst e) k') eqn:E2; simpl.
    + apply ckey_eqb_eq in E2. rewrite <- E2, E. reflexivity.
    + exact IH.
Qed.
Lemma touch_exists k r : existsb (fun e : ckey * list node => ckey_eqb (fst e) k) (touch k r) = true.
Proof.
  unfold touch. destruct (existsb _ r) eqn:E; [exact E|]. rewrite existsb_app. simpl.
  rewrite ckey_eqb_refl, orb_true_r. reflexivity.
Qed.
Lemma votes_add k x k' r :
  votes k' (add_vote k x r) = if ckey_eqb k' k then set_add x (votes k' r) else votes k' r.
Proof.
  unfold add_vote. rewrite votes_map, touch_exists, andb_true_r, !votes_touch. reflexivity.
Qed.
Lemma votes_filter key k r :
  votes k (filter (fun e : ckey * list node => negb (is_below (fst e) key)) r) =
  if is_below k key then [] else votes k r.
Proof.
  unfold votes. induction r as [|e r IH]; simpl; [destruct (is_below k key); reflexivity|].
  destruct (ckey_eqb (fst e) k) eqn:E.
  - apply ckey_eqb_eq in E. rewrite E. destruct (is_below k key) eqn:B; simpl.
    + exact IH.
    + rewrite E, ckey_eqb_refl. reflexivity.
  - destruct (is_below (fst e) key) eqn:B; simpl; [exact IH|]. rewrite E. exact IH.
Qed.
Lemma set_add_in x y l : In y (set_add x l) <-> y = x \/ In y l.
Proof.
  unfold set_add. destruct (existsb (Nat.eqb x) l) eqn:E.
  - apply existsb_exists in E as (z & Z & E). apply Nat.eqb_eq in E. subst z.
    split; [auto|intros [->|H]; auto].
  - rewrite in_app_iff. simpl. intuition congruence.
Qed.
Lemma set_add_NoDup x l : NoDup l -> NoDup (set_add x l).
Proof.
  intros H. unfold set_add. destruct (existsb (Nat.eqb x) l) eqn:E; [exact H|].
  assert (N : ~ In x l).
  { intros I. assert (T : existsb (Nat.eqb x) l = true) by (apply existsb_exists; exists x; rewrite Nat.eqb_refl; auto). congruence. }
  clear E. induction H as [|y l Y H IH]; simpl.
  - apply NoDup_cons; [auto|constructor].
  - apply NoDup_cons; [|apply IH; intros I; apply N; right; exact I].
    rewrite in_app_iff. simpl. intros [I|[I|[]]]; [auto|]. apply N. left. congruence.
Qed.

(** ** The own checkpoints *)
Lemma sorted_add_in c l x : In x (sorted_add c l) <-> x = c \/ In x l.
Proof.
  induction l as [|y l IH]; simpl; [intuition congruence|].
  destruct (cp_seq c <? cp_seq y); simpl; [intuition congruence|]. rewrite IH. intuition congruence.
Qed.

Lemma have_own_spec k s : have_own k s = true <-> exists c, In c (s_own s) /\ checkpoint_key c = k.
Proof.
  unfold have_own. rewrite existsb_exists. split; intros (c & C & E); exists c; split; auto.
  - apply andb_true_iff in E as (E & E3). apply andb_true_iff in E as (E1 & E2).
    apply Nat.eqb_eq in E1, E2. apply digest_eqb_eq in E3. destruct k. unfold checkpoint_key. simpl in *. congruence.
  - subst k. unfold checkpoint_key. simpl. rewrite !Nat.eqb_refl. apply digest_eqb_eq. reflexivity.
Qed.

(** ** The invariant *)

(** [n] is not above everything this replica ordered or caught up to *)
Definition reached (es : list event) (n : nat) : Prop :=
  n = 0 \/ (exists m r, In (EOrdered m r) es /\ n <= m) \/ (exists a b, In (ECatchupFinished a b) es /\ n <= snd a).

Record inv (cfg : config) (es : list event) (outs : list output) (s : state) : Prop := {
  i_nodes : 2 <= sh_nodes (s_sh s);
  i_votes : forall k x, In x (votes k (s_recv s)) -> exists c, In (ECheckpoint c x) es /\ checkpoint_key c = k;
  i_nodup : forall k, NoDup (votes k (s_recv s));
  i_above : forall k, votes k (s_recv s) <> [] -> s_stable s < k_seq k;
  i_sent : forall c, In c (s_own s) -> s_stable s < cp_seq c -> In (OSend c) outs;
  i_freq : s_stable s mod c_freq cfg = 0;
  i_ofreq : forall c, In c (s_own s) -> cp_seq c mod c_freq cfg = 0;
  i_reached : c_master cfg = true -> forall c, In c (s_own s) -> reached es (cp_seq c);
  i_low : c_master cfg = true -> forall c, In c (s_own s) -> s_stable s <= cp_seq c;
  i_has : c_master cfg = true -> exists c, In c (s_own s) /\ cp_seq c = s_stable s }.

Definition monotone_hist (es es' : list event) : Prop := forall e, In e es -> In e es'.

Lemma reached_mono es es' n : incl es es' -> reached es n -> reached es' n.
Proof.
  intros M [H|[(m & r & H)|(a & b & H)]]; [left; exact H|right; left|right; right].
  - exists m, r. split; [apply M, H|apply H].
  - exists a, b. split; [apply M, H|apply H].
Qed.
Lemma reached_le es n m : m <= n -> reached es n -> reached es m.
Proof.
  intros M [H|[(k & r & H & L)|(a & b & H & L)]]; [left; lia|right; left|right; right].
  - exists k, r. split; [exact H|lia].
  - exists a, b. split; [exact H|lia].
Qed.

Lemma inv_mono cfg es es' outs outs' s : incl es es' -> incl outs outs' -> inv cfg es outs s -> inv cfg es' outs' s.
Proof.
  intros M O I. destruct I as [I1 I2 I3 I4 I5 I6 I7 I8 I9 I10]. constructor; auto.
  - intros k x H. destruct (I2 k x H) as (c & C & E). exists c. auto.
  - intros Ma c C. eapply reached_mono; eauto.
Qed.

(** changing only the watermarks *)
Lemma inv_marks cfg es outs s low high :
  inv cfg es outs s -> inv cfg es outs (State (s_sh s) (s_own s) (s_recv s) (s_stable s) low high).
Proof. intros []. constructor; simpl; auto. Qed.
Lemma inv_shared cfg es outs s h : 2 <= sh_nodes h -> inv cfg es outs s -> inv cfg es outs (with_shared h s).
Proof. intros H []. constructor; simpl; auto. Qed.
Lemma inv_touch cfg es outs s k : inv cfg es outs s -> inv cfg es outs (with_recv (touch k (s_recv s)) s).
Proof.
  intros []. constructor; simpl; auto.
  - intros k' x. rewrite votes_touch. auto.
  - intros k'. rewrite votes_touch. auto.
  - intros k'. rewrite votes_touch. auto.
Qed.

Lemma mark_stable_eq cfg n s : exists own low high,
  fst (mark_stable cfg n s) =
    State (s_sh s) own (filter (fun e => negb (is_below (fst e) (sh_view (s_sh s), n))) (s_recv s)) n low high /\
  low = n /\ high = Some (n + c_log cfg) /\
  (forall c, In c own -> n <= cp_seq c /\ (In c (s_own s) \/ (cp_seq c = n))) /\
  (exists c, In c own /\ cp_seq c = n) /\
  (forall c, In c (s_own s) -> n <= cp_seq c -> In c own).
Proof.
  unfold mark_stable, seq2, set_watermarks, upd. simpl.
  destruct (existsb (fun c => cp_seq c =? n) (s_own s)) eqn:E; simpl.
  - eexists _, _, _. refine (conj eq_refl (conj eq_refl (conj eq_refl (conj _ (conj _ _))))).
    + intros c C. apply filter_In in C as (C & L). destruct (Nat.ltb_spec (cp_seq c) n); [discriminate|]. split; [lia|auto].
    + apply existsb_exists in E as (c & C & E). apply Nat.eqb_eq in E. exists c. split; [|exact E].
      apply filter_In. split; [exact C|]. destruct (Nat.ltb_spec (cp_seq c) n); [lia|reflexivity].
    + intros c C L. apply filter_In. split; [exact C|]. destruct (Nat.ltb_spec (cp_seq c) n); [lia|reflexivity].
  - assert (Q : forall h, cp_seq (checkpoint_from_audit cfg n h) = n).
    { intros h. unfold checkpoint_from_audit. destruct (audit_search _ _ n). reflexivity. }
    eexists _, _, _. refine (conj eq_refl (conj eq_refl (conj eq_refl (conj _ (conj _ _))))).
    + intros c C. apply filter_In in C as (C & L). destruct (Nat.ltb_spec (cp_seq c) n); [discriminate|].
      split; [lia|]. apply sorted_add_in in C as [->|C]; [right; apply Q|left; exact C].
    + eexists. split; [|apply (Q (s_sh s))]. apply filter_In. split; [apply sorted_add_in; left; reflexivity|].
      rewrite Q, Nat.ltb_irrefl. reflexivity.
    + intros c C L. apply filter_In. split; [apply sorted_add_in; right; exact C|].
      destruct (Nat.ltb_spec (cp_seq c) n); [lia|reflexivity].
Qed.

Lemma mark_stable_inv cfg es outs s n :
  inv cfg es outs s -> s_stable s <= n -> n mod c_freq cfg = 0 -> (c_master cfg = true -> reached es n) ->
  inv cfg es outs (fst (mark_stable cfg n s)).
Proof.
  intros I L F R. destruct (mark_stable_eq cfg n s) as (own & low & high & -> & _ & _ & A & B & _).
  destruct I as [I1 I2 I3 I4 I5 I6 I7 I8 I9 I10]. constructor; simpl.
  - exact I1.
  - intros k x. rewrite votes_filter. destruct (is_below k _); [contradiction|]. apply I2.
  - intros k. rewrite votes_filter. destruct (is_below k _); [constructor|]. apply I3.
  - intros k. rewrite votes_filter. unfold is_below. simpl. destruct (Nat.leb_spec (k_seq k) n); [congruence|]. lia.
  - intros c C D. destruct (A c C) as (_ & [X|X]); [|lia]. apply I5; [exact X|lia].
  - exact F.
  - intros c C. destruct (A c C) as (_ & [X| ->]); [|exact F]. apply I7. exact X.
  - intros M c C. destruct (A c C) as (_ & [X| ->]); [|auto]. apply I8; auto.
  - intros M c C. apply (A c C).
  - intros M. exact B.
Qed.
Lemma mark_stable_stable cfg n s : s_stable (fst (mark_stable cfg n s)) = n.
Proof. destruct (mark_stable_eq cfg n s) as (own & low & high & -> & _). reflexivity. Qed.
Lemma mark_stable_shared cfg n s : s_sh (fst (mark_stable cfg n s)) = s_sh s.
Proof. destruct (mark_stable_eq cfg n s) as (own & low & high & -> & _). reflexivity. Qed.
Lemma mark_stable_sends cfg n s c : ~ In (OSend c) (snd (mark_stable cfg n s)).
Proof. unfold mark_stable, seq2, set_watermarks, upd. simpl. intuition discriminate. Qed.

Lemma quorum_pos n : 2 <= n -> 1 <= Quorum_Model.checkpoint (Quorums n).
Proof.
  intros H. change (Quorum_Model.checkpoint (Quorums n)) with (n - getMaxFailures n - 1). rewrite max_failures_div. pose proof (Nat.div_mod (n - 1) 3 ltac:(lia)).
  pose proof (Nat.mod_upper_bound (n - 1) 3 ltac:(lia)). lia.
Qed.

Lemma quorum_above cfg es outs s k : inv cfg es outs s -> quorum_votes k s = true -> s_stable s < k_seq k.
Proof.
  intros I Q. apply (i_above _ _ _ _ I). unfold quorum_votes, is_reached in Q. apply Nat.leb_le in Q.
  pose proof (quorum_pos _ (i_nodes _ _ _ _ I)) as P. intros V. rewrite V in Q. cbn [length] in Q. lia.
Qed.

(** what a stabilisation by votes rests on *)
Definition certified (cfg : config) (es : list event) (outs : list output) (s : state) (n : nat) : Prop :=
  exists k c, k_seq k = n /\ checkpoint_key c = k /\ In (OSend c) outs /\
    length (votes k (s_recv s)) >= Quorum_Model.checkpoint (Quorums (sh_nodes (s_sh s))).

Lemma try_inv cfg es outs s k s' o :
  inv cfg es outs s -> try_to_stabilize cfg k s = (s', o) ->
  inv cfg es outs s' /\ s_sh s' = s_sh s /\ (forall c, ~ In (OSend c) o) /\
  ((s_stable s' = s_stable s /\ s_own s' = s_own s /\ s_recv s' = touch k (s_recv s) /\ s_low s' = s_low s /\
    s_high s' = s_high s) \/
   (s_stable s < s_stable s' /\ s_stable s' = k_seq k /\ quorum_votes k s = true /\
    (exists c, In c (s_own s) /\ In (OSend c) outs /\ checkpoint_key c = k) /\
    s_low s' = s_stable s' /\ s_high s' = Some (s_low s' + c_log cfg))).
Proof.
  intros I E. unfold try_to_stabilize in E.
  pose proof (inv_touch cfg es outs s k I) as It.
  assert (Qe : quorum_votes k (with_recv (touch k (s_recv s)) s) = quorum_votes k s).
  { unfold quorum_votes. simpl. rewrite votes_touch. reflexivity. }
  rewrite Qe in E. destruct (quorum_votes k s) eqn:Q; simpl in E.
  2: { injection E as <- <-. refine (conj It (conj eq_refl (conj _ _))); [intros c []|left; auto]. }
  destruct (have_own k (with_recv (touch k (s_recv s)) s)) eqn:H; simpl in E.
  2: { injection E as <- <-. refine (conj It (conj eq_refl (conj _ _))); [intros c []|left; auto]. }
  apply have_own_spec in H as (c & C & K). simpl in C.
  pose proof (quorum_above _ _ _ _ _ I Q) as L.
  assert (cp_seq c = k_seq k) as Sq by (rewrite <- K; reflexivity).
  assert (In (OSend c) outs) as Sn by (apply (i_sent _ _ _ _ I c C); lia).
  assert (F : k_seq k mod c_freq cfg = 0) by (rewrite <- Sq; apply (i_ofreq _ _ _ _ I c C)).
  pose proof (mark_stable_inv cfg es outs _ (k_seq k) It) as M. simpl in M.
  assert (s' = fst (mark_stable cfg (k_seq k) (with_recv (touch k (s_recv s)) s))) as -> by (rewrite E; reflexivity).
  assert (o = snd (mark_stable cfg (k_seq k) (with_recv (touch k (s_recv s)) s))) as -> by (rewrite E; reflexivity).
  refine (conj _ (conj _ (conj _ _))).
  - apply M; [lia|exact F|]. intros Ma. rewrite <- Sq. apply (i_reached _ _ _ _ I Ma c C).
  - rewrite mark_stable_shared. reflexivity.
  - apply mark_stable_sends.
  - right. rewrite mark_stable_stable. refine (conj L (conj eq_refl (conj eq_refl (conj _ _)))).
    + exists c. auto.
    + destruct (mark_stable_eq cfg (k_seq k) (with_recv (touch k (s_recv s)) s)) as (own & low & high & -> & -> & -> & _).
      simpl. auto.
Qed.

Lemma last_key_in d l : In (last_key d l) (d :: l).
Proof.
  revert d. induction l as [|k l IH]; intros d; [left; reflexivity|].
  cbn [last_key]. destruct (IH (if key_le d k then k else d)) as [X|X].
  - rewrite <- X. destruct (key_le d k); [right; left|left]; reflexivity.
  - right. right. exact X.
Qed.

Lemma floor_ge F s n : F <> 0 -> s mod F = 0 -> s <= n -> s <= n / F * F.
Proof.
  intros HF E L. apply Nat.mod_divides in E as (q & ->); [|exact HF].
  assert (q <= n / F); [|nia]. apply Nat.div_le_lower_bound; lia.
Qed.
Lemma floor_le F n : F <> 0 -> n / F * F <= n.
Proof. intros HF. pose proof (Nat.mul_div_le n F HF). lia. Qed.
Lemma floor_mod F n : F <> 0 -> (n / F * F) mod F = 0.
Proof. intros HF. apply Nat.mod_mul. exact HF. Qed.

Lemma caught_inv cfg es outs s key :
  c_freq cfg <> 0 -> inv cfg es outs s -> s_stable s <= snd key -> (c_master cfg = true -> reached es (snd key)) ->
  inv cfg es outs (fst (caught_up_till_3pc cfg key s)) /\
  s_stable s <= s_stable (fst (caught_up_till_3pc cfg key s)) /\
  s_stable (fst (caught_up_till_3pc cfg key s)) = snd key / c_freq cfg * c_freq cfg.
Proof.
  intros HF I L R. unfold caught_up_till_3pc. rewrite mark_stable_stable.
  pose proof (floor_ge _ _ _ HF (i_freq _ _ _ _ I) L) as G.
  refine (conj _ (conj G eq_refl)). apply mark_stable_inv; auto.
  - apply floor_mod, HF.
  - intros M. eapply reached_le; [|apply (R M)]. apply floor_le, HF.
Qed.

Lemma start_inv cfg es outs s k s' o :
  c_freq cfg <> 0 -> inv cfg es outs s -> start_catchup_if_needed cfg k s = (s', o) ->
  inv cfg es outs s' /\ (forall c, ~ In (OSend c) o) /\
  (s' = s \/
   (c_master cfg = false /\ s_stable s <= s_stable s' /\
    exists k', quorum_votes k' s = true /\ s_stable s' = k_seq k' / c_freq cfg * c_freq cfg)).
Proof.
  intros HF I E. unfold start_catchup_if_needed in E.
  destruct (have_own k s). { injection E as <- <-. split; [exact I|]. split; [intros c []|left; reflexivity]. }
  destruct (unknown_stabilized s) as [|u [|u' us]] eqn:U.
  1, 2: injection E as <- <-; split; [exact I|]; split; [intros c []|left; reflexivity].
  destruct (c_master cfg) eqn:Ma.
  - destruct (sh_primary (s_sh s)); injection E as <- <-; (split; [exact I|]);
      (split; [|left; reflexivity]); simpl; intuition discriminate.
  - pose proof (last_key_in u (u' :: us)) as Lk. rewrite <- U in Lk.
    set (lk := last_key u (u' :: us)) in *. clearbody lk.
    apply filter_In in Lk as (_ & Lk). apply andb_true_iff in Lk as (Lk & _). apply andb_true_iff in Lk as (Q & _).
    pose proof (quorum_above _ _ _ _ _ I Q) as Ab.
    set (key := (sh_view (s_sh s), k_seq lk)) in *. cbn [fst snd] in E.
    assert (I1 : inv cfg es outs (with_last key s)) by (apply inv_shared; [apply (i_nodes _ _ _ _ I)|exact I]).
    assert (R1 : forall e, c_master cfg = true -> reached e (snd key)) by (intros e X; congruence).
    destruct (caught_inv cfg es outs (with_last key s) key HF I1) as (I2 & L2 & E2); [simpl; lia|apply R1|].
    destruct (caught_inv cfg es outs (fst (caught_up_till_3pc cfg key (with_last key s))) key HF I2) as (I3 & L3 & E3);
      [rewrite E2; apply floor_le; exact HF|apply R1|].
    unfold seq2, emit, upd in E.
    destruct (caught_up_till_3pc cfg key (with_last key s)) as [a1 o1] eqn:C1.
    destruct (caught_up_till_3pc cfg key a1) as [a2 o2] eqn:C2.
    cbn [fst] in *. rewrite C2 in *. cbn [fst] in *.
    assert (a2 = s') as Es by congruence. subst a2.
    assert (No : forall c, ~ In (OSend c) o).
    { injection E as <-.
      intros c [X|X]; [discriminate|]. apply in_app_or in X as [X|X].
      - revert X. replace o1 with (snd (caught_up_till_3pc cfg key (with_last key s))) by (rewrite C1; reflexivity). apply mark_stable_sends.
      - revert X. replace o2 with (snd (caught_up_till_3pc cfg key a1)) by (rewrite C2; reflexivity). apply mark_stable_sends. }
    refine (conj I3 (conj No _)). right. refine (conj eq_refl (conj _ _)).
    + simpl in L2. lia.
    + exists lk. split; [exact Q|exact E3].
Qed.

(** [n] different nodes sent a Checkpoint with this key *)
Definition vouched (es : list event) (n : nat) (k : ckey) : Prop :=
  exists names, NoDup names /\ n <= length names /\
    forall x, In x names -> exists c, In (ECheckpoint c x) es /\ checkpoint_key c = k.

Lemma quorum_vouched cfg es outs s k : inv cfg es outs s -> quorum_votes k s = true ->
  vouched es (Quorum_Model.checkpoint (Quorums (sh_nodes (s_sh s)))) k.
Proof.
  intros I Q. exists (votes k (s_recv s)). unfold quorum_votes, is_reached in Q. apply Nat.leb_le in Q.
  refine (conj (i_nodup _ _ _ _ I k) (conj Q _)). apply (i_votes _ _ _ _ I).
Qed.

Definition marks_ok (cfg : config) (s : state) : Prop :=
  s_low s = s_stable s /\ s_high s = Some (s_low s + c_log cfg).

Lemma mark_stable_marks cfg n s : marks_ok cfg (fst (mark_stable cfg n s)).
Proof.
  destruct (mark_stable_eq cfg n s) as (own & low & high & -> & -> & -> & _). split; reflexivity.
Qed.

(** ** One event *)
Lemma add_vote_inv cfg es outs s c x k : checkpoint_key c = k -> s_stable s < k_seq k ->
  inv cfg es outs s -> inv cfg (es ++ [ECheckpoint c x]) outs (with_recv (add_vote k x (s_recv s)) s).
Proof.
  intros K L I. apply (inv_mono cfg es (es ++ [ECheckpoint c x]) outs outs) in I;
    [|apply incl_appl, incl_refl|apply incl_refl].
  destruct I as [I1 I2 I3 I4 I5 I6 I7 I8 I9 I10]. constructor; simpl; auto.
  - intros k' y. rewrite votes_add. destruct (ckey_eqb k' k) eqn:E; [|apply I2].
    apply ckey_eqb_eq in E. subst k'. intros Y. apply set_add_in in Y as [->|Y]; [|apply I2; exact Y].
    exists c. split; [apply in_or_app; right; left; reflexivity|exact K].
  - intros k'. rewrite votes_add. destruct (ckey_eqb k' k); [apply set_add_NoDup|]; apply I3.
  - intros k'. rewrite votes_add. destruct (ckey_eqb k' k) eqn:E; [|apply I4].
    apply ckey_eqb_eq in E. subst k'. intros _. exact L.
Qed.

Lemma checkpoint_step cfg es outs s c x s' o :
  c_freq cfg <> 0 -> inv cfg es outs s -> process_checkpoint cfg c x s = (s', o) ->
  inv cfg (es ++ [ECheckpoint c x]) outs s' /\ (forall c', ~ In (OSend c') o) /\
  (s_stable s' = s_stable s \/
   (s_stable s < s_stable s' /\ exists k,
      vouched (es ++ [ECheckpoint c x]) (Quorum_Model.checkpoint (Quorums (sh_nodes (s_sh s)))) k /\
      ((exists c', checkpoint_key c' = k /\ In (OSend c') outs /\ k_seq k = s_stable s') \/
       (c_master cfg = false /\ s_stable s' = k_seq k / c_freq cfg * c_freq cfg)))) /\
  (c_master cfg = true -> marks_ok cfg s -> marks_ok cfg s') /\
  (c_master cfg = true -> s_low s' = s_low s \/ s_low s' = s_stable s').
Proof.
  intros HF I E. unfold process_checkpoint in E.
  assert (Iq : inv cfg (es ++ [ECheckpoint c x]) outs s)
    by (apply (inv_mono cfg es _ outs outs); [apply incl_appl, incl_refl|apply incl_refl|exact I]).
  destruct (validate_checkpoint cfg s c) eqn:V.
  all: try (injection E as <- <-; refine (conj Iq (conj _ (conj (or_introl eq_refl) (conj _ _)))); [intros c' []|auto|auto]; fail).
  assert (L : s_stable s < k_seq (checkpoint_key c)).
  { unfold validate_checkpoint in V. destruct (negb _); [discriminate|].
    destruct (Nat.leb_spec (cp_seq c) (s_stable s)); [discriminate|]. simpl. lia. }
  set (k := checkpoint_key c) in *.
  pose proof (add_vote_inv cfg es outs s c x k eq_refl L I) as I1.
  unfold seq2, upd in E. cbn [fst snd] in E.
  set (s1 := with_recv (add_vote k x (s_recv s)) s) in *.
  assert (S1 : s_stable s1 = s_stable s) by reflexivity.
  assert (H1 : s_sh s1 = s_sh s) by reflexivity.
  assert (M1 : marks_ok cfg s -> marks_ok cfg s1) by auto.
  assert (W1 : s_low s1 = s_low s) by reflexivity.
  clearbody s1.
  destruct (try_to_stabilize cfg k s1) as [s2 o2] eqn:T.
  destruct (start_catchup_if_needed cfg k s2) as [s3 o3] eqn:U. injection E as <- <-.
  destruct (try_inv _ _ _ _ _ _ _ I1 T) as (I2 & H2 & N2 & D2).
  destruct (start_inv _ _ _ _ _ _ _ HF I2 U) as (I3 & N3 & D3).
  refine (conj I3 (conj _ (conj _ (conj _ _)))).
  - intros c' X. apply in_app_or in X as [X|X]; [exact (N2 c' X)|exact (N3 c' X)].
  - destruct D3 as [->|(Ma & L3 & k' & Q & E3)].
    + destruct D2 as [(E2 & _)|(L2 & E2 & Q & (c' & C1 & C2 & C3) & _)]; [left; congruence|].
      right. split; [lia|]. exists k. split.
      * rewrite <- H1. eapply quorum_vouched; eauto.
      * left. exists c'. auto.
    + destruct (Nat.eq_dec (s_stable s3) (s_stable s)) as [X|X]; [left; exact X|right].
      split; [destruct D2 as [(E2 & _)|(L2 & _)]; lia|].
      exists k'. split.
      * rewrite <- H1, <- H2. eapply quorum_vouched; eauto.
      * right. auto.
  - intros Ma M. apply M1 in M. destruct D3 as [->|(X & _)]; [|congruence].
    destruct D2 as [(E2 & _ & _ & E3 & E4)|(_ & _ & _ & _ & E3 & E4)].
    + destruct M as (M2 & M3). split; congruence.
    + split; assumption.
  - intros Ma. destruct D3 as [->|(X & _)]; [|congruence].
    destruct D2 as [(E2 & _ & _ & E3 & E4)|(_ & _ & _ & _ & E3 & E4)]; [left; congruence|right; exact E3].
Qed.

Lemma ordered_step cfg es outs s n root s' o :
  inv cfg es outs s -> (c_master cfg = true -> s_stable s <= n) -> process_ordered cfg n root s = (s', o) ->
  inv cfg (es ++ [EOrdered n root]) (outs ++ o) s' /\
  (forall c', In (OSend c') o -> cp_seq c' = n /\ cp_digest c' = root /\ cp_inst c' = c_inst cfg /\
     n mod c_freq cfg = 0 /\ In (cp_view c', n) (sh_preprepared (s_sh s))) /\
  (s_stable s' = s_stable s \/
   (s_stable s < s_stable s' /\ exists k,
      vouched (es ++ [EOrdered n root]) (Quorum_Model.checkpoint (Quorums (sh_nodes (s_sh s)))) k /\
      exists c', checkpoint_key c' = k /\ In (OSend c') (outs ++ o) /\ k_seq k = s_stable s')) /\
  (marks_ok cfg s -> marks_ok cfg s') /\ (s_low s' = s_low s \/ s_low s' = s_stable s').
Proof.
  intros I Low E. unfold process_ordered in E.
  assert (Iq : inv cfg (es ++ [EOrdered n root]) outs s)
    by (apply (inv_mono cfg es _ outs outs); [apply incl_appl, incl_refl|apply incl_refl|exact I]).
  destruct (find (fun b => snd b =? n) (rev (sh_preprepared (s_sh s)))) as [b|] eqn:F.
  2: { injection E as <- <-. refine (conj _ (conj _ (conj (or_introl eq_refl) (conj (fun x => x) (or_introl eq_refl))))).
       - eapply inv_mono; [apply incl_refl|apply incl_appl, incl_refl|exact Iq].
       - intros c' [X|[]]. discriminate. }
  apply find_some in F as (Fi & Fe). apply Nat.eqb_eq in Fe. apply in_rev in Fi.
  unfold add_to_checkpoint in E. destruct (Nat.eqb_spec (snd b mod c_freq cfg) 0) as [Md|Md]; cbn [negb] in E.
  2: { injection E as <- <-. rewrite app_nil_r. refine (conj Iq (conj _ (conj (or_introl eq_refl) (conj (fun x => x) (or_introl eq_refl))))).
       intros c' []. }
  unfold seq2, do_checkpoint in E. cbn [fst snd] in E.
  set (c := Checkpoint (c_inst cfg) (fst b) 0 (snd b) root) in *.
  set (s1 := with_own (sorted_add c (s_own s)) s) in *.
  assert (I1 : inv cfg (es ++ [EOrdered n root]) (outs ++ [OSend c]) s1).
  { apply (inv_mono _ _ (es ++ [EOrdered n root]) _ (outs ++ [OSend c])) in Iq;
      [|apply incl_refl|apply incl_appl, incl_refl].
    destruct Iq as [Q1 Q2 Q3 Q4 Q5 Q6 Q7 Q8 Q9 Q10]. constructor; simpl; auto.
    - intros d D Ld. apply sorted_add_in in D as [->|D]; [apply in_or_app; right; left; reflexivity|auto].
    - intros d D. apply sorted_add_in in D as [->|D]; [exact Md|auto].
    - intros Ma d D. apply sorted_add_in in D as [->|D]; [|auto]. right. left. exists n, root.
      split; [apply in_or_app; right; left; reflexivity|simpl; lia].
    - intros Ma d D. apply sorted_add_in in D as [->|D]; [|auto]. simpl. rewrite Fe. apply Low, Ma.
    - intros Ma. destruct (Q10 Ma) as (d & D & Ed). exists d. split; [apply sorted_add_in; auto|exact Ed]. }
  assert (S1 : s_stable s1 = s_stable s) by reflexivity.
  assert (H1 : s_sh s1 = s_sh s) by reflexivity.
  assert (M1 : marks_ok cfg s -> marks_ok cfg s1) by auto.
  assert (W1 : s_low s1 = s_low s) by reflexivity.
  clearbody s1.
  destruct (try_to_stabilize cfg _ s1) as [s2 o2] eqn:T. injection E as <- <-.
  destruct (try_inv _ _ _ _ _ _ _ I1 T) as (I2 & H2 & N2 & D2).
  refine (conj _ (conj _ (conj _ (conj _ _)))).
  - eapply inv_mono; [apply incl_refl| |exact I2]. intros y Y. apply in_app_or in Y as [Y|Y]; apply in_or_app; [left; exact Y|right].
    destruct Y as [Y|[]]. left. exact Y.
  - intros c' [X|X].
    + injection X as <-. unfold c. simpl. rewrite Fe. refine (conj eq_refl (conj eq_refl (conj eq_refl (conj _ _)))).
      * rewrite <- Fe. exact Md.
      * rewrite <- Fe. destruct b. exact Fi.
    + destruct (N2 c' X).
  - destruct D2 as [(E2 & _)|(L2 & E2 & Q & (c' & C1 & C2 & C3) & _)]; [left; congruence|].
    right. split; [lia|]. eexists. split.
    + rewrite <- H1. eapply quorum_vouched; eauto.
    + exists c'. refine (conj C3 (conj _ _)); [|congruence].
      apply in_app_or in C2 as [C2|[C2|[]]]; apply in_or_app; [left; exact C2|right; left; exact C2].
  - intros M. apply M1 in M.
    destruct D2 as [(E2 & _ & _ & E3 & E4)|(_ & _ & _ & _ & E3 & E4)].
    + destruct M as (M2 & M3). split; congruence.
    + split; assumption.
  - destruct D2 as [(E2 & _ & _ & E3 & E4)|(_ & _ & _ & _ & E3 & E4)]; [left; congruence|right; exact E3].
Qed.

Lemma new_view_step cfg es outs s v c s' o :
  inv cfg es outs s -> process_new_view_accepted cfg v c s = (s', o) ->
  inv cfg (es ++ [ENewViewAccepted v c]) outs s' /\ (forall c', ~ In (OSend c') o) /\
  (c_master cfg = true ->
     (s_stable s' = s_stable s \/
      (s_stable s < s_stable s' /\ s_stable s' = cp_seq c /\ In (OSend c) outs)) /\
     (marks_ok cfg s -> marks_ok cfg s') /\ (s_low s' = s_low s \/ s_low s' = s_stable s')).
Proof.
  intros I E.
  assert (Iq : inv cfg (es ++ [ENewViewAccepted v c]) outs s)
    by (apply (inv_mono cfg es _ outs outs); [apply incl_appl, incl_refl|apply incl_refl|exact I]).
  unfold process_new_view_accepted in E. destruct (c_master cfg) eqn:Ma.
  - destruct (existsb (cp_eqb c) (s_own s)) eqn:X; cbn [negb] in E.
    2: { injection E as <- <-. refine (conj Iq (conj _ _)); [intros c' []|auto]. }
    apply existsb_exists in X as (c2 & C & X). apply cp_eqb_eq in X. subst c2.
    pose proof (i_low _ _ _ _ I Ma c C) as L.
    pose proof (mark_stable_inv cfg (es ++ [ENewViewAccepted v c]) outs s (cp_seq c) Iq L (i_ofreq _ _ _ _ I c C)
      (fun _ => i_reached _ _ _ _ Iq Ma c C)) as I1.
    pose proof (mark_stable_stable cfg (cp_seq c) s) as St.
    pose proof (mark_stable_sends cfg (cp_seq c) s) as Sn.
    unfold seq2, emit, set_watermarks in E.
    destruct (mark_stable cfg (cp_seq c) s) as [s1 o1]. cbn [fst snd] in *. injection E as <- <-.
    refine (conj (inv_marks _ _ _ _ _ _ I1) (conj _ _)).
    + intros c' X. apply in_app_or in X as [X|[X|[X|[]]]]; try discriminate. exact (Sn c' X).
    + intros _. simpl. rewrite St. refine (conj _ (conj _ _)).
      * destruct (Nat.eq_dec (cp_seq c) (s_stable s)) as [->|N]; [left; reflexivity|right].
        refine (conj _ (conj eq_refl _)); [lia|]. apply (i_sent _ _ _ _ I c C). lia.
      * intros _. split; simpl; auto.
      * right. reflexivity.
  - unfold seq2, emit, set_watermarks, upd in E. cbn [fst snd] in E. injection E as <- <-.
    refine (conj _ (conj _ _)); [|simpl; intuition discriminate|discriminate].
    destruct I as [I1 I2 I3 I4 I5 I6 I7 I8 I9 I10]. constructor; simpl; try congruence; auto.
    + contradiction.
    + constructor.
    + intros k []. reflexivity.
    + intros c' [<-|[]]. simpl. lia.
    + destruct (c_freq cfg); [reflexivity|]. apply Nat.mod_0_l. discriminate.
    + intros c' [<-|[]]. simpl. destruct (c_freq cfg); [reflexivity|]. apply Nat.mod_0_l. discriminate.
Qed.

Lemma catchup_step cfg es outs s a b s' o :
  c_freq cfg <> 0 -> inv cfg es outs s -> (c_master cfg = true -> s_stable s <= snd a) ->
  process_catchup_finished cfg a b s = (s', o) ->
  inv cfg (es ++ [ECatchupFinished a b]) outs s' /\ (forall c', ~ In (OSend c') o) /\
  (s_stable s' = s_stable s \/
   (c_master cfg = true /\ s_stable s < s_stable s' /\ snd b < snd a /\
    s_stable s' = snd a / c_freq cfg * c_freq cfg)) /\
  (c_master cfg = true -> marks_ok cfg s -> marks_ok cfg s') /\
  (c_master cfg = true -> s_low s' = s_low s \/ s_low s' = s_stable s').
Proof.
  intros HF I L E.
  assert (Iq : inv cfg (es ++ [ECatchupFinished a b]) outs s)
    by (apply (inv_mono cfg es _ outs outs); [apply incl_appl, incl_refl|apply incl_refl|exact I]).
  unfold process_catchup_finished, seq2, emit in E.
  destruct (Nat.ltb_spec (snd b) (snd a)) as [Hl|Hl].
  2: { injection E as <- <-. refine (conj Iq (conj _ (conj (or_introl eq_refl) (conj (fun _ x => x) (fun _ => or_introl eq_refl))))).
       simpl. intuition discriminate. }
  destruct (c_master cfg) eqn:Ma.
  - destruct (caught_inv cfg (es ++ [ECatchupFinished a b]) outs s a HF Iq (L eq_refl)) as (I1 & L1 & E1).
    { intros _. right. right. exists a, b. split; [apply in_or_app; right; left; reflexivity|lia]. }
    pose proof (mark_stable_sends cfg (snd a / c_freq cfg * c_freq cfg) s) as Sn.
    pose proof (mark_stable_marks cfg (snd a / c_freq cfg * c_freq cfg) s) as Mk.
    unfold caught_up_till_3pc in *. destruct (mark_stable cfg _ s) as [s1 o1]. cbn [fst snd] in *. injection E as <- <-.
    refine (conj I1 (conj _ (conj _ (conj (fun _ _ => Mk) (fun _ => or_intror (proj1 Mk)))))).
    + intros c' X. apply in_app_or in X as [X|[X|[]]]; [exact (Sn c' X)|discriminate].
    + destruct (Nat.eq_dec (s_stable s1) (s_stable s)) as [X|X]; [left; exact X|right].
      refine (conj eq_refl (conj _ (conj Hl E1))). lia.
  - destruct (sh_primary (s_sh s)); cbn [negb] in E.
    + injection E as <- <-. refine (conj Iq (conj _ (conj (or_introl eq_refl) (conj (fun _ x => x) (fun _ => or_introl eq_refl))))).
      simpl. intuition discriminate.
    + unfold catchup_clear_for_backup, seq2, upd, set_watermarks in E. cbn [fst snd] in E. injection E as <- <-.
      refine (conj _ (conj _ (conj (or_introl eq_refl) (conj _ _)))).
      * destruct Iq as [I1 I2 I3 I4 I5 I6 I7 I8 I9 I10]. constructor; simpl; try congruence; auto.
        -- contradiction.
        -- constructor.
        -- intros c' [<-|[]]. simpl. lia.
        -- intros c' [<-|[]]. simpl. apply Nat.mod_0_l. exact HF.
      * simpl. intuition discriminate.
      * discriminate.
      * discriminate.
Qed.

Lemma marks_step cfg es outs s e s' o :
  inv cfg es outs s -> (e = EPropagatePrimaryDone \/ exists i, e = EBackupSetup i) -> step cfg e s = (s', o) ->
  inv cfg (es ++ [e]) outs s' /\ (forall c', ~ In (OSend c') o) /\ s_stable s' = s_stable s /\
  s_own s' = s_own s /\ s_recv s' = s_recv s /\ s_sh s' = s_sh s.
Proof.
  intros I D E.
  assert (Iq : inv cfg (es ++ [e]) outs s)
    by (apply (inv_mono cfg es _ outs outs); [apply incl_appl, incl_refl|apply incl_refl|exact I]).
  assert (G : forall o1, (exists low high, s' = State (s_sh s) (s_own s) (s_recv s) (s_stable s) low high) \/ s' = s ->
    o = o1 -> (o1 = [] \/ o1 = [OUnstashWatermarks]) ->
    inv cfg (es ++ [e]) outs s' /\ (forall c', ~ In (OSend c') o) /\ s_stable s' = s_stable s /\
    s_own s' = s_own s /\ s_recv s' = s_recv s /\ s_sh s' = s_sh s).
  { intros o1 [(low & high & ->)| ->] -> P.
    - refine (conj (inv_marks _ _ _ _ _ _ Iq) (conj _ _)); [|auto]. destruct P as [->| ->]; simpl; intuition discriminate.
    - refine (conj Iq (conj _ _)); [|auto]. destruct P as [->| ->]; simpl; intuition discriminate. }
  destruct D as [->|(i & ->)]; cbn [step] in E.
  - unfold on_propagate_primary_done, update_watermark_from_3pc, set_watermarks in E.
    destruct (c_master cfg).
    + destruct (sh_last (s_sh s)) as [v n]. destruct (v =? _); injection E as <- <-.
      * apply (G [OUnstashWatermarks]); [left; eexists _, _; reflexivity|reflexivity|auto].
      * apply (G []); auto.
    + destruct (negb _); injection E as <- <-.
      * apply (G [OUnstashWatermarks]); [left; eexists _, _; reflexivity|reflexivity|auto].
      * apply (G []); auto.
  - unfold process_backup_setup, update_watermark_from_3pc, set_watermarks in E.
    destruct (i =? c_inst cfg).
    + destruct (sh_last (s_sh s)) as [v n]. destruct (v =? _); injection E as <- <-.
      * apply (G [OUnstashWatermarks]); [left; eexists _, _; reflexivity|reflexivity|auto].
      * apply (G []); auto.
    + injection E as <- <-. apply (G []); auto.
Qed.

(** ** The message that a checkpoint is stable *)
Definition emits (s s' : state) (o : list output) : Prop :=
  s_stable s' = s_stable s \/ s_stable s' = 0 \/ exists v, In (OStabilized v (s_stable s')) o.

Lemma mark_emits cfg n s : exists v, In (OStabilized v n) (snd (mark_stable cfg n s)).
Proof. eexists. unfold mark_stable, seq2, set_watermarks, upd. simpl. right. left. reflexivity. Qed.
Lemma emits_refl s o : emits s s o.
Proof. left. reflexivity. Qed.
Lemma emits_trans s1 s2 s3 o1 o2 : emits s1 s2 o1 -> emits s2 s3 o2 -> emits s1 s3 (o1 ++ o2).
Proof.
  unfold emits. intros A [->|[B|(v & B)]].
  - destruct A as [->|[->|(v & A)]]; [left|right; left|right; right; exists v; apply in_or_app]; auto.
  - right. left. exact B.
  - right. right. exists v. apply in_or_app. right. exact B.
Qed.
Lemma mark_emits' cfg n s : emits s (fst (mark_stable cfg n s)) (snd (mark_stable cfg n s)).
Proof. right. right. rewrite mark_stable_stable. apply mark_emits. Qed.

Definition emitting (a : act) : Prop := forall s, emits s (fst (a s)) (snd (a s)).
Lemma seq2_emitting a b : emitting a -> emitting b -> emitting (seq2 a b).
Proof.
  intros A B s. unfold seq2. pose proof (A s) as X. destruct (a s) as [s1 o1]. pose proof (B s1) as Y.
  destruct (b s1) as [s2 o2]. simpl in *. eapply emits_trans; eauto.
Qed.
Lemma mark_emitting cfg n : emitting (mark_stable cfg n).
Proof. intros s. apply mark_emits'. Qed.
Lemma keep_emitting (a : act) : (forall s, s_stable (fst (a s)) = s_stable s) -> emitting a.
Proof. intros H s. left. apply H. Qed.
Lemma try_emitting cfg k : emitting (try_to_stabilize cfg k).
Proof.
  intros s. unfold try_to_stabilize. set (s1 := with_recv _ s). assert (E : s_stable s1 = s_stable s) by reflexivity.
  clearbody s1. destruct (negb _); [left; exact E|]. destruct (negb _); [left; exact E|].
  pose proof (mark_emits' cfg (k_seq k) s1) as [X|[X|X]]; [left; congruence|right; left; exact X|right; right; exact X].
Qed.
Lemma step_emitting cfg e : emitting (step cfg e).
Proof.
  destruct e; cbn [step].
  - intros s. unfold process_checkpoint. destruct (validate_checkpoint cfg s c); try apply emits_refl.
    revert s. apply seq2_emitting; [apply keep_emitting; reflexivity|]. apply seq2_emitting; [apply try_emitting|].
    intros s. unfold start_catchup_if_needed. destruct (have_own _ s); [apply emits_refl|].
    destruct (unknown_stabilized s) as [|u [|u' us]]; try apply emits_refl.
    destruct (c_master cfg); [destruct (sh_primary _); apply emits_refl|].
    apply (seq2_emitting (emit _)); [apply keep_emitting; reflexivity|]. apply seq2_emitting; [apply keep_emitting; reflexivity|].
    apply seq2_emitting; apply mark_emitting.
  - intros s. unfold process_ordered. destruct (find _ _); [|apply emits_refl]. unfold add_to_checkpoint.
    destruct (negb _); [apply emits_refl|]. apply (seq2_emitting (do_checkpoint _ _ _ _)); [apply keep_emitting; reflexivity|apply try_emitting].
  - intros s. unfold process_new_view_accepted. destruct (c_master cfg).
    + destruct (negb _); [apply emits_refl|]. apply (seq2_emitting (mark_stable _ _)); [apply mark_emitting|].
      apply seq2_emitting; apply keep_emitting; reflexivity.
    + right. left. reflexivity.
  - intros s. unfold process_catchup_finished. revert s. apply seq2_emitting; [|apply keep_emitting; reflexivity].
    intros s. destruct (snd master_last <? snd caught); [|apply emits_refl]. destruct (c_master cfg); [apply mark_emitting|].
    destruct (negb _); [left; reflexivity|apply emits_refl].
  - intros s. left. unfold on_propagate_primary_done, update_watermark_from_3pc, set_watermarks.
    destruct (c_master cfg); [destruct (sh_last _); destruct (_ =? _); reflexivity|]. destruct (negb _); reflexivity.
  - intros s. left. unfold process_backup_setup, update_watermark_from_3pc, set_watermarks.
    destruct (_ =? _); [destruct (sh_last _); destruct (_ =? _); reflexivity|reflexivity].
  - apply keep_emitting. reflexivity.
Qed.

(** ** Nothing that should be stable is left *)

Definition grows (s s' : state) : Prop :=
  s_stable s <= s_stable s' /\
  (forall k x, In x (votes k (s_recv s)) -> In x (votes k (s_recv s')) \/ k_seq k <= s_stable s') /\
  (forall c, In c (s_own s) -> In c (s_own s') \/ cp_seq c <= s_stable s').
Lemma grows_refl s : grows s s.
Proof. refine (conj (le_n _) (conj _ _)); auto. Qed.
Lemma grows_trans a b c : grows a b -> grows b c -> grows a c.
Proof.
  intros (A1 & A2 & A3) (B1 & B2 & B3). refine (conj _ (conj _ _)); [lia| |].
  - intros k x X. destruct (A2 k x X) as [Y|Y]; [exact (B2 k x Y)|right; lia].
  - intros d X. destruct (A3 d X) as [Y|Y]; [exact (B3 d Y)|right; lia].
Qed.
Lemma grows_same s s' : s_stable s' = s_stable s -> s_own s' = s_own s -> s_recv s' = s_recv s -> grows s s'.
Proof. intros A B C. unfold grows. rewrite A, B, C. apply grows_refl. Qed.
Lemma mark_grows cfg n s : s_stable s <= n -> grows s (fst (mark_stable cfg n s)).
Proof.
  intros L. destruct (mark_stable_eq cfg n s) as (own & low & high & -> & _ & _ & A & B & C).
  refine (conj L (conj _ _)); simpl.
  - intros k x X. rewrite votes_filter. unfold is_below. simpl. destruct (Nat.leb_spec (k_seq k) n); [right; lia|left; exact X].
  - intros c X. destruct (Nat.le_gt_cases n (cp_seq c)); [left; apply C; auto|right; lia].
Qed.

(** every own checkpoint above the stable one still lacks votes, except perhaps those of [k] *)
Definition settled_but (k : option ckey) (s : state) : Prop :=
  forall c, In c (s_own s) -> s_stable s < cp_seq c -> Some (checkpoint_key c) <> k -> quorum_votes (checkpoint_key c) s = false.
Lemma settled_weaken k s : settled_but None s -> settled_but k s.
Proof. intros H c C L _. apply H; [exact C|exact L|discriminate]. Qed.

Lemma try_settled cfg k s : (quorum_votes k s = true -> s_stable s <= k_seq k) -> settled_but (Some k) s -> settled_but None (fst (try_to_stabilize cfg k s)).
Proof.
  intros Hk H. unfold try_to_stabilize. set (s1 := with_recv (touch k (s_recv s)) s).
  assert (Qe : forall k', quorum_votes k' s1 = quorum_votes k' s).
  { intros k'. unfold quorum_votes, s1. simpl. rewrite votes_touch. reflexivity. }
  assert (K : forall c, {checkpoint_key c = k} + {checkpoint_key c <> k}).
  { intros c. destruct (ckey_eqb (checkpoint_key c) k) eqn:E; [left; apply ckey_eqb_eq; exact E|right].
    intros X. apply ckey_eqb_eq in X. congruence. }
  destruct (quorum_votes k s1) eqn:Q; cbn [negb].
  2: { intros c C L _. destruct (K c) as [->|N]; [exact Q|]. cbn [fst] in *. rewrite Qe. apply H; [exact C|exact L|congruence]. }
  destruct (have_own k s1) eqn:O; cbn [negb].
  2: { intros c C L _. cbn [fst] in *. rewrite Qe. apply H; [exact C|exact L|]. intros X. injection X as X.
       assert (have_own k s1 = true) by (apply have_own_spec; exists c; auto). congruence. }
  apply have_own_spec in O as (c0 & C0 & K0).
  destruct (mark_stable_eq cfg (k_seq k) s1) as (own & low & high & -> & _ & _ & A & _).
  intros c C L _. simpl in C, L. destruct (A c C) as (_ & [X|X]); [|lia].
  unfold quorum_votes. simpl. rewrite votes_filter, votes_touch. unfold is_below. simpl.
  destruct (Nat.leb_spec (cp_seq c) (k_seq k)); [lia|].
  destruct (K c) as [E|N]; [exfalso; rewrite <- E in L; simpl in L; lia|].
  destruct (Nat.lt_ge_cases (s_stable s) (cp_seq c)) as [Hl|Hl].
  - apply (H c X Hl). congruence.
  - rewrite Qe in Q. specialize (Hk Q). lia.
Qed.
Lemma try_grows cfg k s : (quorum_votes k s = true -> s_stable s <= k_seq k) -> grows s (fst (try_to_stabilize cfg k s)).
Proof.
  intros Hk. unfold try_to_stabilize. set (s1 := with_recv (touch k (s_recv s)) s).
  assert (Qe : quorum_votes k s1 = quorum_votes k s) by (unfold quorum_votes, s1; simpl; rewrite votes_touch; reflexivity).
  assert (G : grows s s1).
  { refine (conj (le_n _) (conj _ _)); [|auto]. intros k' x X. left. unfold s1. simpl. rewrite votes_touch. exact X. }
  destruct (quorum_votes k s1) eqn:Q; cbn [negb]; [|exact G].
  destruct (have_own k s1); cbn [negb]; [|exact G].
  apply (grows_trans _ s1); [exact G|]. apply mark_grows. apply Hk. congruence.
Qed.

(** a Checkpoint message passes the checks *)
Definition valid_checkpoint (cfg : config) (s : state) (c : checkpoint) : Prop :=
  cp_inst c = c_inst cfg /\ s_stable s < cp_seq c /\ sh_view (s_sh s) <= cp_view c /\
  sh_waiting (s_sh s) = false /\ sh_participating (s_sh s) = true.
Lemma valid_process cfg s c : valid_checkpoint cfg s c -> validate_checkpoint cfg s c = PROCESS.
Proof.
  intros (A & B & C & D & E). unfold validate_checkpoint. rewrite A, Nat.eqb_refl, D, E. cbn [negb].
  destruct (Nat.leb_spec (cp_seq c) (s_stable s)); [lia|]. destruct (Nat.ltb_spec (cp_view c) (sh_view (s_sh s))); [lia|]. reflexivity.
Qed.
Lemma process_above cfg s c : validate_checkpoint cfg s c = PROCESS -> s_stable s < cp_seq c.
Proof.
  unfold validate_checkpoint. destruct (negb _); [discriminate|].
  destruct (Nat.leb_spec (cp_seq c) (s_stable s)); [discriminate|]. auto.
Qed.

Definition keeps_nodes (s : state) (e : event) : Prop :=
  match e with EShared h => sh_nodes h = sh_nodes (s_sh s) | _ => True end.

Lemma step_settled cfg es outs s e s' o :
  c_freq cfg <> 0 -> c_master cfg = true -> inv cfg es outs s -> keeps_nodes s e ->
  (forall n r, e = EOrdered n r -> s_stable s <= n) ->
  (forall a b, e = ECatchupFinished a b -> s_stable s <= snd a) ->
  step cfg e s = (s', o) -> settled_but None s ->
  settled_but None s' /\ grows s s' /\ sh_nodes (s_sh s') = sh_nodes (s_sh s) /\
  (forall c x, e = ECheckpoint c x -> valid_checkpoint cfg s c ->
     In x (votes (checkpoint_key c) (s_recv s')) \/ cp_seq c <= s_stable s') /\
  (forall c, In (OSend c) o -> In c (s_own s') \/ cp_seq c <= s_stable s').
Proof.
  intros HF Ma I Kn Lo Lc E St.
  assert (Same : forall s1, s_stable s1 = s_stable s -> s_own s1 = s_own s -> s_recv s1 = s_recv s ->
    sh_nodes (s_sh s1) = sh_nodes (s_sh s) -> settled_but None s1).
  { intros s1 A B C D c Cc L N. unfold quorum_votes. rewrite C, D. apply (St c); congruence. }
  assert (Mk : forall n s1, s_stable s <= n -> s1 = fst (mark_stable cfg n s) -> settled_but None s1).
  { intros n s1 L ->. destruct (mark_stable_eq cfg n s) as (own & low & high & -> & _ & _ & A & _).
    intros c C Lt _. simpl in C, Lt. destruct (A c C) as (_ & [X|X]); [|lia].
    unfold quorum_votes. simpl. rewrite votes_filter. unfold is_below. simpl.
    destruct (Nat.leb_spec (cp_seq c) n); [lia|]. apply (St c X); [lia|discriminate]. }
  destruct e; cbn [step] in E.
  - (* Checkpoint *)
    unfold process_checkpoint in E. destruct (validate_checkpoint cfg s c) eqn:V.
    all: try (injection E as <- <-; refine (conj St (conj (grows_refl s) (conj eq_refl (conj _ _))));
      [intros c' x' X Vc; injection X as <- <-; rewrite (valid_process _ _ _ Vc) in V; discriminate|intros c' []]; fail).
    pose proof (process_above _ _ _ V) as Ab. change (cp_seq c) with (k_seq (checkpoint_key c)) in Ab.
    set (k := checkpoint_key c) in *.
    pose proof (add_vote_inv cfg es outs s c sender k eq_refl Ab I) as I1.
    unfold seq2, upd in E. cbn [fst snd] in E.
    set (s1 := with_recv (add_vote k sender (s_recv s)) s) in *.
    assert (S1 : settled_but (Some k) s1).
    { intros d D L N. unfold quorum_votes, s1. simpl. rewrite votes_add.
      destruct (ckey_eqb (checkpoint_key d) k) eqn:Ke; [apply ckey_eqb_eq in Ke; congruence|]. apply (St d D L). discriminate. }
    assert (G1 : grows s s1).
    { refine (conj (le_n _) (conj _ _)); [|auto]. intros k' x X. left. unfold s1. simpl. rewrite votes_add.
      destruct (ckey_eqb k' k); [apply set_add_in; right|]; exact X. }
    assert (V1 : In sender (votes k (s_recv s1))).
    { unfold s1. simpl. rewrite votes_add, ckey_eqb_refl. apply set_add_in. left. reflexivity. }
    assert (A1 : quorum_votes k s1 = true -> s_stable s1 <= k_seq k) by (intros _; exact (Nat.lt_le_incl _ _ Ab)).
    assert (N1 : sh_nodes (s_sh s1) = sh_nodes (s_sh s)) by reflexivity.
    clearbody s1.
    pose proof (try_settled cfg k s1 A1 S1) as S2. pose proof (try_grows cfg k s1 A1) as G2.
    destruct (try_to_stabilize cfg k s1) as [s2 o2] eqn:T. cbn [fst] in *.
    destruct (try_inv _ _ _ _ _ _ _ I1 T) as (I2 & H2 & N2 & _).
    destruct (start_catchup_if_needed cfg k s2) as [s3 o3] eqn:U. injection E as <- <-.
    destruct (start_inv _ _ _ _ _ _ _ HF I2 U) as (_ & N3 & [->|(X & _)]); [|congruence].
    refine (conj S2 (conj (grows_trans _ _ _ G1 G2) (conj _ (conj _ _)))).
    + congruence.
    + intros c' x' X _. injection X as <- <-. destruct G2 as (_ & G2 & _). exact (G2 k sender V1).
    + intros c' X. apply in_app_or in X as [X|X]; [destruct (N2 c' X)|destruct (N3 c' X)].
  - (* Ordered *)
    unfold process_ordered in E.
    destruct (find (fun b => snd b =? n) (rev (sh_preprepared (s_sh s)))) as [b|] eqn:F.
    2: { injection E as <- <-. refine (conj St (conj (grows_refl s) (conj eq_refl (conj _ _)))); [discriminate|].
         intros c [X|[]]. discriminate. }
    unfold add_to_checkpoint in E. destruct (negb (snd b mod c_freq cfg =? 0)) eqn:Md.
    { injection E as <- <-. refine (conj St (conj (grows_refl s) (conj eq_refl (conj _ _)))); [discriminate|]. intros c []. }
    apply find_some in F as (_ & Fe). apply Nat.eqb_eq in Fe.
    unfold seq2, do_checkpoint in E. cbn [fst snd] in E.
    set (c := Checkpoint (c_inst cfg) (fst b) 0 (snd b) root) in *.
    set (s1 := with_own (sorted_add c (s_own s)) s) in *.
    set (k := CKey (fst b) (snd b) root) in *.
    assert (S1 : settled_but (Some k) s1).
    { intros d D L N. unfold s1 in D. simpl in D. apply sorted_add_in in D as [->|D]; [destruct N; reflexivity|].
      apply (St d D L). discriminate. }
    assert (G1 : grows s s1).
    { refine (conj (le_n _) (conj _ _)); [auto|]. intros d D. left. apply sorted_add_in. right. exact D. }
    assert (A1 : quorum_votes k s1 = true -> s_stable s1 <= k_seq k).
    { intros _. unfold s1, k. simpl. rewrite Fe. exact (Lo n root eq_refl). }
    assert (C1 : In c (s_own s1)) by (apply sorted_add_in; left; reflexivity).
    assert (N1 : sh_nodes (s_sh s1) = sh_nodes (s_sh s)) by reflexivity.
    clearbody s1.
    pose proof (try_settled cfg k s1 A1 S1) as S2. pose proof (try_grows cfg k s1 A1) as G2.
    clear Md.
    assert (H2 : s_sh (fst (try_to_stabilize cfg k s1)) = s_sh s1).
    { unfold try_to_stabilize. destruct (negb _); [reflexivity|]. destruct (negb _); [reflexivity|].
      rewrite mark_stable_shared. reflexivity. }
    assert (N2 : forall c', ~ In (OSend c') (snd (try_to_stabilize cfg k s1))).
    { intros c'. unfold try_to_stabilize. destruct (negb _); [intros []|]. destruct (negb _); [intros []|]. apply mark_stable_sends. }
    destruct (try_to_stabilize cfg k s1) as [s2 o2] eqn:T. cbn [fst snd] in *. injection E as <- <-.
    refine (conj S2 (conj (grows_trans _ _ _ G1 G2) (conj _ (conj _ _)))).
    + congruence.
    + discriminate.
    + intros c' [X|X]; [|destruct (N2 c' X)]. injection X as <-. destruct G2 as (_ & _ & G2). exact (G2 c C1).
  - (* NewView *)
    unfold process_new_view_accepted in E. rewrite Ma in E.
    destruct (existsb (cp_eqb c) (s_own s)) eqn:X; cbn [negb] in E.
    2: { injection E as <- <-. refine (conj St (conj (grows_refl s) (conj eq_refl (conj _ _)))); [discriminate|]. intros c' []. }
    apply existsb_exists in X as (c2 & C & X). apply cp_eqb_eq in X. subst c2.
    pose proof (i_low _ _ _ _ I Ma c C) as L.
    pose proof (Mk (cp_seq c) _ L eq_refl) as S1. pose proof (mark_grows cfg _ _ L) as G1.
    pose proof (mark_stable_shared cfg (cp_seq c) s) as H1.
    pose proof (mark_stable_sends cfg (cp_seq c) s) as Sn.
    unfold seq2, emit, set_watermarks in E.
    destruct (mark_stable cfg (cp_seq c) s) as [s1 o1]. cbn [fst snd] in *. injection E as <- <-.
    refine (conj S1 (conj _ (conj _ (conj _ _)))).
    + apply (grows_trans _ _ _ G1). apply grows_same; reflexivity.
    + simpl. congruence.
    + discriminate.
    + intros c' X. apply in_app_or in X as [X|[X|[X|[]]]]; try discriminate. destruct (Sn c' X).
  - (* catch-up *)
    unfold process_catchup_finished, seq2, emit in E. rewrite Ma in E.
    destruct (Nat.ltb_spec (snd master_last) (snd caught)) as [Hl|Hl].
    2: { injection E as <- <-. refine (conj St (conj (grows_refl s) (conj eq_refl (conj _ _)))); [discriminate|].
         intros c' [X|[]]. discriminate. }
    pose proof (floor_ge _ _ _ HF (i_freq _ _ _ _ I) (Lc _ _ eq_refl)) as L.
    pose proof (Mk _ _ L eq_refl) as S1. pose proof (mark_grows cfg _ _ L) as G1.
    pose proof (mark_stable_shared cfg (snd caught / c_freq cfg * c_freq cfg) s) as H1.
    pose proof (mark_stable_sends cfg (snd caught / c_freq cfg * c_freq cfg) s) as Sn.
    unfold caught_up_till_3pc in E. destruct (mark_stable cfg _ s) as [s1 o1]. cbn [fst snd] in *. injection E as <- <-.
    refine (conj S1 (conj G1 (conj _ (conj _ _)))); [congruence|discriminate|].
    intros c' X. apply in_app_or in X as [X|[X|[]]]; [destruct (Sn c' X)|discriminate].
  - destruct (marks_step cfg es outs s EPropagatePrimaryDone s' o I (or_introl eq_refl) E) as (_ & N & A & B & C & D).
    refine (conj (Same s' A B C (f_equal _ D)) (conj (grows_same _ _ A B C) (conj (f_equal _ D) (conj _ _)))); [discriminate|].
    intros c X. destruct (N c X).
  - destruct (marks_step cfg es outs s (EBackupSetup inst) s' o I (or_intror (ex_intro _ inst eq_refl)) E) as (_ & N & A & B & C & D).
    refine (conj (Same s' A B C (f_equal _ D)) (conj (grows_same _ _ A B C) (conj (f_equal _ D) (conj _ _)))); [discriminate|].
    intros c X. destruct (N c X).
  - injection E as <- <-. simpl in Kn.
    refine (conj (Same (with_shared h s) eq_refl eq_refl eq_refl Kn) (conj (grows_same s (with_shared h s) eq_refl eq_refl eq_refl) (conj Kn (conj _ _)))); [discriminate|].
    intros c [].
Qed.

(** ** The number of nodes *)
Definition keeps (a : act) : Prop := forall s, sh_nodes (s_sh (fst (a s))) = sh_nodes (s_sh s).
Lemma seq2_keeps a b : keeps a -> keeps b -> keeps (seq2 a b).
Proof.
  intros A B s. unfold seq2. pose proof (A s) as X. destruct (a s) as [s1 o1]. pose proof (B s1) as Y.
  destruct (b s1) as [s2 o2]. simpl in *. congruence.
Qed.
Lemma mark_keeps cfg n : keeps (mark_stable cfg n).
Proof. intros s. rewrite mark_stable_shared. reflexivity. Qed.
Lemma try_keeps cfg k : keeps (try_to_stabilize cfg k).
Proof.
  intros s. unfold try_to_stabilize. destruct (negb _); [reflexivity|]. destruct (negb _); [reflexivity|].
  rewrite mark_keeps. reflexivity.
Qed.
Lemma step_nodes cfg e s : (forall h, e = EShared h -> sh_nodes h = sh_nodes (s_sh s)) ->
  sh_nodes (s_sh (fst (step cfg e s))) = sh_nodes (s_sh s).
Proof.
  intros H. destruct e; cbn [step].
  - unfold process_checkpoint. destruct (validate_checkpoint cfg s c); try reflexivity.
    revert s H. intros s _. revert s. apply (seq2_keeps _ _); [intros s; reflexivity|]. apply seq2_keeps; [apply try_keeps|].
    intros s. unfold start_catchup_if_needed. destruct (have_own _ s); [reflexivity|].
    destruct (unknown_stabilized s) as [|u [|u' us]]; try reflexivity.
    destruct (c_master cfg); [destruct (sh_primary _); reflexivity|].
    apply (seq2_keeps (emit _)); [intros x; reflexivity|]. apply seq2_keeps; [intros x; reflexivity|].
    apply seq2_keeps; apply mark_keeps.
  - unfold process_ordered. destruct (find _ _); [|reflexivity]. unfold add_to_checkpoint.
    destruct (negb _); [reflexivity|]. apply (seq2_keeps (do_checkpoint _ _ _ _)); [intros x; reflexivity|apply try_keeps].
  - unfold process_new_view_accepted. destruct (c_master cfg).
    + destruct (negb _); [reflexivity|]. apply (seq2_keeps (mark_stable _ _)); [apply mark_keeps|].
      apply seq2_keeps; intros x; reflexivity.
    + reflexivity.
  - unfold process_catchup_finished. revert s H. intros s _. revert s. apply (seq2_keeps _ _); [|intros x; reflexivity].
    intros s. destruct (snd master_last <? snd caught); [|reflexivity]. destruct (c_master cfg); [apply mark_keeps|].
    destruct (negb _); reflexivity.
  - unfold on_propagate_primary_done, update_watermark_from_3pc, set_watermarks.
    destruct (c_master cfg); [destruct (sh_last _); destruct (_ =? _); reflexivity|]. destruct (negb _); reflexivity.
  - unfold process_backup_setup, update_watermark_from_3pc, set_watermarks.
    destruct (_ =? _); [destruct (sh_last _); destruct (_ =? _); reflexivity|reflexivity].
  - simpl. apply H. reflexivity.
Qed.
