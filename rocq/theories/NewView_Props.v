(** Properties C21, C22 and C23: the checkpoint and the batches of a NewView. *)
From Coq Require Import List Arith Lia Bool Permutation Sorted.
From Verif Require Import Quorum_Model Quorum_Props NewView_Model.
Import ListNotations.

(** ** Facts about the small helpers *)
Lemma cp_eqb_eq a b : cp_eqb a b = true <-> a = b.
Proof.
  unfold cp_eqb. rewrite !andb_true_iff, !Nat.eqb_eq. destruct a, b; simpl.
  split; [intros ((((-> & ->) & ->) & ->) & ->); reflexivity|intros E; injection E; auto 6].
Qed.
Lemma cp_mem_In c l : cp_mem c l = true <-> In c l.
Proof.
  unfold cp_mem. rewrite existsb_exists. split.
  - intros (x & Hx & E). apply cp_eqb_eq in E. subst. exact Hx.
  - intros H. exists c. split; [exact H|]. apply cp_eqb_eq. reflexivity.
Qed.
Lemma bid_eqb_eq a b : bid_eqb a b = true <-> a = b.
Proof.
  unfold bid_eqb. rewrite !andb_true_iff, !Nat.eqb_eq. destruct a, b; simpl.
  split; [intros (((-> & ->) & ->) & ->); reflexivity|intros E; injection E; auto 6].
Qed.
Lemma bids_eqb_eq l : forall m, bids_eqb l m = true <-> l = m.
Proof.
  induction l as [|a l IH]; intros [|b m]; simpl; try (split; congruence).
  rewrite andb_true_iff, bid_eqb_eq, IH. split; [intros [-> ->]; reflexivity|].
  intros E; injection E; auto.
Qed.

Lemma insert_perm b l : Permutation (insert b l) (b :: l).
Proof.
  induction l as [|c l IH]; simpl; auto. destruct (bid_leb b c); auto.
  apply perm_trans with (c :: b :: l); [apply perm_skip, IH|apply perm_swap].
Qed.
Lemma sorted_perm l : Permutation (sorted l) l.
Proof.
  induction l as [|b l IH]; simpl; auto.
  apply perm_trans with (b :: sorted l); [apply insert_perm|apply perm_skip, IH].
Qed.


(** ** Specification vocabulary

    A collection of ViewChange messages together with their senders.  [backed k l P]: at least
    [k] different senders sent a message with property [P]. *)
Definition backed {A} (k : nat) (l : list (A * view_change_msg)) (P : view_change_msg -> Prop) : Prop :=
  exists names, NoDup names /\ k <= length names /\
    forall x, In x names -> exists vc, In (x, vc) l /\ P vc.

Definition prepared_at (vc : view_change_msg) (s : nat) (b : batch_id) : Prop :=
  In b (vc_prepared vc) /\ pp_seq_no b = s.
Definition preprepared_at (vc : view_change_msg) (s : nat) (b : batch_id) : Prop :=
  In b (vc_preprepared vc) /\ pp_seq_no b = s.
(** the same batch: same digest, first proposed in the same view *)
Definition same_batch (b c : batch_id) : Prop :=
  pp_seq_no b = pp_seq_no c /\ pp_digest b = pp_digest c /\ pp_view_no b = pp_view_no c.

(** A checkpoint supported by the messages: n-f of them are not stable above it and n-f of
    them contain it. *)
Definition supported {A} (q : quorums) (l : list (A * view_change_msg)) (cp : cp_msg) : Prop :=
  backed (strong q) l (fun vc => vc_stable vc <= cp_end cp) /\
  backed (strong q) l (fun vc => In cp (vc_checkpoints vc)).

(** A batch with a certificate in the messages: some message reports it prepared, n-f
    messages do not contradict it (they are not stable there, and report at that place only
    the same batch or a batch of an earlier view) and f+1 messages pre-prepared it in that
    view or later. *)
Definition certified {A} (q : quorums) (l : list (A * view_change_msg)) (b : batch_id) : Prop :=
  (exists x vc, In (x, vc) l /\ In b (vc_prepared vc)) /\
  backed (strong q) l (fun vc => vc_stable vc < pp_seq_no b /\
    forall c, prepared_at vc (pp_seq_no b) c ->
      view_no c < view_no b \/ (view_no c = view_no b /\ same_batch c b)) /\
  backed (weak q) l (fun vc => exists c, In c (vc_preprepared vc) /\ same_batch c b /\ view_no b <= view_no c).

(** n-f messages are not stable at [s] and have nothing prepared there *)
Definition nothing_prepared {A} (q : quorums) (l : list (A * view_change_msg)) (s : nat) : Prop :=
  backed (strong q) l (fun vc => vc_stable vc < s /\ forall c, ~ prepared_at vc s c).

Lemma count_backed {A} (l : list (A * view_change_msg)) check k :
  NoDup (map fst l) ->
  (k <= count check (map snd l) <-> backed k l (fun vc => check vc = true)).
Proof.
  intros D. split.
  - intros H. exists (map fst (filter (fun p => check (snd p)) l)). split; [|split].
    + clear H. induction l as [|[x vc] l IH]; simpl; [constructor|].
      inversion D; subst. destruct (check vc); simpl; auto. constructor; auto.
      intros X. apply H1. apply in_map_iff in X as ([y w] & E & X). simpl in E. subst.
      apply filter_In in X as [X _]. apply (in_map fst) in X. exact X.
    + rewrite map_length. unfold count in H. clear D. revert H. generalize k. induction l as [|[x vc] l IH]; simpl; auto.
      destruct (check vc); simpl; auto. intros [|k'] H; [lia|]. apply le_n_S, IH. lia.
    + intros x X. apply in_map_iff in X as ([y vc] & <- & X). apply filter_In in X as [X C].
      exists vc. auto.
  - intros (names & N & K & H). unfold count.
    assert (L : length names <= length (filter check (map snd l))); [|lia].
    assert (I : incl names (map fst (filter (fun p => check (snd p)) l))).
    { intros x X. destruct (H x X) as (vc & I & C). apply in_map_iff. exists (x, vc). split; auto.
      apply filter_In. auto. }
    pose proof (NoDup_incl_length N I) as L. rewrite map_length in L.
    assert (E : forall m : list (A * view_change_msg), length (filter (fun p => check (snd p)) m) = length (filter check (map snd m))).
    { induction m as [|[y w] m IH]; simpl; auto. destruct (check w); simpl; auto. }
    rewrite E in L. exact L.
Qed.

Lemma backed_iff {A} k (l : list (A * view_change_msg)) P Q :
  (forall vc, P vc <-> Q vc) -> (backed k l P <-> backed k l Q).
Proof.
  intros H. unfold backed. split; intros (n & D & K & F); exists n; (split; [auto|split; [auto|]]);
    intros x X; destruct (F x X) as (vc & I & C); exists vc; split; auto; apply H; auto.
Qed.

Lemma reached_backed {A} (l : list (A * view_change_msg)) check k P :
  NoDup (map fst l) -> (forall vc, check vc = true <-> P vc) ->
  (is_reached k (count check (map snd l)) = true <-> backed k l P).
Proof.
  intros D H. unfold is_reached. rewrite Nat.leb_le, (count_backed l check k D). apply backed_iff, H.
Qed.

(** ** C23: the checkpoint *)
Section Cps.
  Context {A : Type} (q : quorums) (l : list (A * view_change_msg)).
  Hypothesis D : NoDup (map fst l).
  Let vcs := map snd l.

  Lemma cp_acceptable_spec cp : cp_acceptable q vcs cp = true <-> supported q l cp.
  Proof.
    unfold cp_acceptable, supported, vcs. rewrite andb_true_iff.
    rewrite (reached_backed l _ _ (fun vc => vc_stable vc <= cp_end cp) D) by (intros; apply Nat.leb_le).
    rewrite (reached_backed l _ _ (fun vc => In cp (vc_checkpoints vc)) D) by (intros; apply cp_mem_In).
    reflexivity.
  Qed.

  Lemma collect_spec m : forall acc c,
    In c (collect_cps q vcs m acc) <-> In c acc \/ (In c m /\ cp_acceptable q vcs c = true).
  Proof.
    induction m as [|x m IH]; intros acc c; simpl; [tauto|].
    destruct (cp_mem x acc) eqn:M.
    - apply cp_mem_In in M. rewrite IH. split; [tauto|]. intros [H|[[->|H] C]]; auto.
    - destruct (cp_acceptable q vcs x) eqn:C; rewrite IH; [rewrite in_app_iff; simpl|].
      + split; [intros [[H|[->|[]]]|H]; tauto|]. intros [H|[[->|H] C']]; auto.
      + split; [tauto|]. intros [H|[[->|H] C']]; auto. congruence.
  Qed.

  Lemma candidates_spec todo : forall acc c,
    In c (candidates q vcs todo acc) <->
    In c acc \/ (exists vc, In vc todo /\ In c (vc_checkpoints vc)) /\ cp_acceptable q vcs c = true.
  Proof.
    induction todo as [|vc todo IH]; intros acc c; simpl.
    - split; [auto|]. intros [H|[(vc & [] & _) _]]; auto.
    - rewrite IH, collect_spec. split.
      + intros [[H|[H C]]|[(w & W & I) C]]; auto; right; (split; [|exact C]); [exists vc|exists w]; auto.
      + intros [H|[(w & [->|W] & I) C]]; auto. right. split; [|exact C]. exists w. auto.
  Qed.

  Lemma highest_spec m : forall best r,
    highest m best = Some r ->
    (In r m \/ best = Some r) /\ (forall c, In c m \/ best = Some c -> cp_end c <= cp_end r).
  Proof.
    induction m as [|c m IH]; intros best r H; simpl in H.
    - subst. split; [auto|]. intros c [[]|E]. injection E as ->. lia.
    - destruct best as [b|].
      + destruct (Nat.ltb_spec (cp_end b) (cp_end c)) as [L|L]; apply IH in H as [P Q]; split; simpl.
        * destruct P as [P|P]; [auto|injection P as ->; auto].
        * intros d [[->|I]|E]; [apply Q; auto|apply Q; auto|injection E as ->].
          specialize (Q c (or_intror eq_refl)). lia.
        * tauto.
        * intros d [[->|I]|E]; [|apply Q; auto|apply Q; auto].
          specialize (Q b (or_intror eq_refl)). lia.
      + apply IH in H as [P Q]; split; simpl.
        * destruct P as [P|P]; [auto|injection P as ->; auto].
        * intros d [[->|I]|E]; [apply Q; auto|apply Q; auto|discriminate].
  Qed.
  Lemma highest_none m : forall best, highest m best = None -> m = [] /\ best = None.
  Proof.
    induction m as [|c m IH]; intros best H; simpl in H; auto.
    destruct best as [b|]; [destruct (cp_end b <? cp_end c)|]; apply IH in H as [_ H]; discriminate.
  Qed.

  Lemma supported_somewhere cp : 1 <= strong q -> supported q l cp ->
    exists vc, In vc vcs /\ In cp (vc_checkpoints vc).
  Proof.
    intros S1 [_ (names & _ & K & H)]. destruct names as [|x names]; [simpl in K; lia|].
    destruct (H x (or_introl eq_refl)) as (vc & I & C). exists vc. split; auto.
    apply (in_map snd) in I. exact I.
  Qed.
End Cps.

(** The chosen checkpoint is supported, and no supported checkpoint is higher; there is no
    choice exactly when no checkpoint is supported. *)
Theorem C23_checkpoint : forall A (q : quorums) (l : list (A * view_change_msg)),
  NoDup (map fst l) -> 1 <= strong q ->
  (forall cp, calc_checkpoint q (map snd l) = Some cp ->
     supported q l cp /\ forall c, supported q l c -> cp_end c <= cp_end cp) /\
  (calc_checkpoint q (map snd l) = None <-> forall cp, ~ supported q l cp).
Proof.
  intros A q l D S1.
  assert (In_cand : forall c, In c (candidates q (map snd l) (map snd l) []) <-> supported q l c).
  { intros c. rewrite (candidates_spec q l). rewrite (cp_acceptable_spec q l D). split.
    - intros [[]|[_ H]]; exact H.
    - intros H. right. split; [|exact H]. apply supported_somewhere with (q := q); auto. }
  split; [|split].
  - intros cp H. apply highest_spec in H as [[P|P] Q]; [|discriminate]. split; [apply In_cand, P|].
    intros c C. apply Q. left. apply In_cand, C.
  - intros H cp C. apply highest_none in H as [H _]. apply In_cand in C. rewrite H in C. destruct C.
  - intros H. unfold calc_checkpoint. destruct (highest _ None) as [cp|] eqn:E; auto.
    apply highest_spec in E as [[P|P] _]; [|discriminate]. apply In_cand in P. destruct (H cp P).
Qed.

(** Hence, with at most f faulty senders, at least f+1 correct nodes have the chosen
    checkpoint. *)
Theorem C23_correct_nodes_have_it : forall A (eqd : forall x y : A, {x = y} + {x <> y})
    (nodes faulty : list A) (l : list (A * view_change_msg)) cp,
  NoDup nodes -> 1 <= length nodes -> length faulty <= getMaxFailures (length nodes) ->
  NoDup (map fst l) -> incl (map fst l) nodes ->
  calc_checkpoint (Quorums (length nodes)) (map snd l) = Some cp ->
  exists h, NoDup h /\ weak (Quorums (length nodes)) <= length h /\
    forall x, In x h -> ~ In x faulty /\ exists vc, In (x, vc) l /\ In cp (vc_checkpoints vc).
Proof.
  intros A eqd nodes faulty l cp Dn N1 F D I E.
  assert (S1 : 1 <= strong (Quorums (length nodes))).
  { pose proof (C17_max_failures (length nodes) N1) as [X _]. simpl. lia. }
  destruct (C23_checkpoint A _ l D S1) as [H _].
  destruct (H cp E) as [[_ (names & Nd & K & Hn)] _].
  assert (M : members nodes names).
  { split; auto. intros x X. destruct (Hn x X) as (vc & V & _). apply I.
    apply (in_map fst) in V. exact V. }
  assert (R : is_reached (strong (Quorums (length nodes))) (length names) = true) by (apply Nat.leb_le; exact K).
  destruct (C17_strong_contains_weak_honest eqd nodes faulty N1 F names M R)
    as (h & Hd & Hi & Hf & Hk).
  exists h. split; [auto|split]. { apply Nat.leb_le, Hk. }
  intros x X. split; auto.
Qed.

(** ** C22: the batches *)
Section Bids.
  Context {A : Type} (q : quorums) (l : list (A * view_change_msg)).
  Hypothesis D : NoDup (map fst l).
  Let vcs := map snd l.

  Lemma prepared_witness_spec b vc : prepared_witness b vc = true <->
    vc_stable vc < pp_seq_no b /\
    forall c, prepared_at vc (pp_seq_no b) c ->
      view_no c < view_no b \/ (view_no c = view_no b /\ same_batch c b).
  Proof.
    unfold prepared_witness, prepared_at, same_batch. destruct (Nat.leb_spec (pp_seq_no b) (vc_stable vc)) as [L|L].
    - split; [discriminate|intros [H _]; lia].
    - rewrite forallb_forall. split.
      + intros H. split; [exact L|]. intros c [I E]. specialize (H c I). unfold not_contradicting in H.
        rewrite (proj2 (Nat.eqb_eq _ _) E) in H. cbn [negb] in H.
        destruct (Nat.ltb_spec (view_no b) (view_no c)) as [X|X]; [discriminate|].
        destruct (Nat.leb_spec (view_no b) (view_no c)) as [Y|Y]; [|left; lia].
        destruct (Nat.eqb_spec (pp_digest c) (pp_digest b)); [|discriminate].
        destruct (Nat.eqb_spec (pp_view_no c) (pp_view_no b)); [|discriminate].
        right. repeat split; auto; lia.
      + intros [_ H] c I. unfold not_contradicting.
        destruct (Nat.eqb_spec (pp_seq_no c) (pp_seq_no b)) as [E|E]; [|reflexivity]. cbn [negb].
        destruct (H c (conj I E)) as [V|(V & _ & G & W)].
        * destruct (Nat.ltb_spec (view_no b) (view_no c)); [lia|].
          destruct (Nat.leb_spec (view_no b) (view_no c)); [lia|]. reflexivity.
        * destruct (Nat.ltb_spec (view_no b) (view_no c)); [lia|].
          rewrite G, W, !Nat.eqb_refl, !andb_false_r. reflexivity.
  Qed.

  Lemma preprepared_witness_spec b vc : preprepared_witness b vc = true <->
    exists c, In c (vc_preprepared vc) /\ same_batch c b /\ view_no b <= view_no c.
  Proof.
    unfold preprepared_witness, same_batch. rewrite existsb_exists. split; intros (c & I & H); exists c; (split; [exact I|]).
    - destruct (Nat.eqb_spec (pp_seq_no c) (pp_seq_no b)); [|discriminate].
      destruct (Nat.eqb_spec (pp_view_no c) (pp_view_no b)); [|discriminate].
      destruct (Nat.eqb_spec (pp_digest c) (pp_digest b)); [|discriminate].
      cbn [negb] in H. apply Nat.leb_le in H. auto.
    - destruct H as ((E1 & E2 & E3) & V). rewrite E1, E2, E3, !Nat.eqb_refl. cbn [negb].
      apply Nat.leb_le, V.
  Qed.

  Lemma null_witness_spec s vc : null_witness s vc = true <->
    vc_stable vc < s /\ forall c, ~ prepared_at vc s c.
  Proof.
    unfold null_witness, prepared_at. destruct (Nat.leb_spec s (vc_stable vc)) as [L|L].
    - split; [discriminate|intros [H _]; lia].
    - rewrite negb_true_iff. split.
      + intros H. split; [exact L|]. intros c [I E]. apply not_true_iff_false in H. apply H.
        apply existsb_exists. exists c. split; auto. apply Nat.eqb_eq, E.
      + intros [_ H]. apply not_true_iff_false. rewrite existsb_exists. intros (c & I & E).
        apply Nat.eqb_eq in E. apply (H c). auto.
  Qed.

  Lemma good_candidate_spec s b : good_candidate q vcs s b = true <->
    pp_seq_no b = s /\
    backed (strong q) l (fun vc => vc_stable vc < pp_seq_no b /\
      forall c, prepared_at vc (pp_seq_no b) c ->
      view_no c < view_no b \/ (view_no c = view_no b /\ same_batch c b)) /\
    backed (weak q) l (fun vc => exists c, In c (vc_preprepared vc) /\ same_batch c b /\ view_no b <= view_no c).
  Proof.
    rewrite <- (reached_backed l _ _ _ D (prepared_witness_spec b)).
    rewrite <- (reached_backed l _ _ _ D (preprepared_witness_spec b)).
    unfold good_candidate, is_batch_prepared, is_batch_preprepared. fold vcs.
    destruct (Nat.eqb_spec (pp_seq_no b) s); cbn [negb]; [|split; [discriminate|tauto]].
    destruct (is_reached (strong q) _); cbn [negb]; [tauto|split; [discriminate|]]. intros (_ & H & _). discriminate.
  Qed.

  Lemma null_spec s : check_null_batch q vcs s = true <-> nothing_prepared q l s.
  Proof. unfold check_null_batch, vcs. apply reached_backed; [exact D|apply null_witness_spec]. Qed.

  Lemma find_none_all {B} (f : B -> bool) m : find f m = None <-> forall x, In x m -> f x = false.
  Proof.
    split; [intros H x; apply find_none; exact H|].
    induction m as [|x m IH]; simpl; auto. intros H. rewrite (H x (or_introl eq_refl)). auto.
  Qed.

  Lemma try_find_some todo s b : try_find_batch q vcs todo s = Some b ->
    (exists vc, In vc todo /\ In b (vc_prepared vc)) /\ good_candidate q vcs s b = true.
  Proof.
    induction todo as [|vc todo IH]; simpl; [discriminate|].
    destruct (find _ (vc_prepared vc)) as [c|] eqn:E.
    - intros H. injection H as <-. apply find_some in E as [E1 E2]. split; auto. exists vc. auto.
    - intros H. destruct (IH H) as [(w & W & I) G]. split; auto. exists w. auto.
  Qed.
  Lemma try_find_none todo s : try_find_batch q vcs todo s = None <->
    forall vc b, In vc todo -> In b (vc_prepared vc) -> good_candidate q vcs s b = false.
  Proof.
    induction todo as [|vc todo IH]; simpl; [split; auto; intros _ ? ? []|].
    destruct (find _ (vc_prepared vc)) as [c|] eqn:E.
    - split; [discriminate|]. intros H. apply find_some in E as [E1 E2].
      rewrite (H vc c (or_introl eq_refl) E1) in E2. discriminate.
    - rewrite IH. rewrite find_none_all in E. split.
      + intros H w b [->|I] B; eauto.
      + intros H w b I B. eauto.
  Qed.

  Lemma try_find_certified s b : try_find_batch q vcs vcs s = Some b -> pp_seq_no b = s /\ certified q l b.
  Proof.
    intros H. apply try_find_some in H as [(vc & I & B) G]. apply good_candidate_spec in G as (S1 & P & Q).
    split; [exact S1|]. unfold certified. split; [|split; assumption].
    unfold vcs in I. apply in_map_iff in I as ([x w] & E & I). simpl in E. subst w. eauto.
  Qed.
  Lemma try_find_missing s : try_find_batch q vcs vcs s = None <->
    forall b, certified q l b -> pp_seq_no b <> s.
  Proof.
    rewrite try_find_none. split.
    - intros H b ((x & vc & I & B) & P & Q) E. apply (in_map snd) in I. specialize (H vc b I B).
      apply not_true_iff_false in H. apply H. apply good_candidate_spec. auto.
    - intros H vc b I B. apply not_true_iff_false. rewrite good_candidate_spec. intros (E & P & Q).
      apply (H b); [|exact E]. split; [|split; assumption].
      unfold vcs in I. apply in_map_iff in I as ([x w] & W & I). simpl in W. subst w. eauto.
  Qed.

  Lemma set_add_new b acc : (forall a, In a acc -> pp_seq_no a < pp_seq_no b) -> set_add b acc = acc ++ [b].
  Proof.
    intros H. unfold set_add. destruct (existsb (bid_eqb b) acc) eqn:E; auto.
    apply existsb_exists in E as (a & I & E). apply bid_eqb_eq in E. subst a. specialize (H b I). lia.
  Qed.

  Lemma loop_spec left : forall s acc r,
    (forall a, In a acc -> pp_seq_no a < s) ->
    batches_loop q vcs left s acc = Some r ->
    exists bs, r = acc ++ bs /\ map pp_seq_no bs = seq s (length bs) /\ length bs <= left /\
      (forall b, In b bs -> certified q l b) /\
      (length bs = left \/
       nothing_prepared q l (s + length bs) /\ forall b, certified q l b -> pp_seq_no b <> s + length bs).
  Proof.
    induction left as [|left IH]; intros s acc r Ha H; simpl in H.
    - injection H as <-. exists []. simpl. rewrite app_nil_r.
      refine (conj eq_refl (conj eq_refl (conj (le_n 0) (conj _ (or_introl eq_refl))))). intros b [].
    - destruct (try_find_batch q vcs vcs s) as [b|] eqn:F.
      + apply try_find_certified in F as [S1 C].
        rewrite set_add_new in H by (rewrite S1; exact Ha).
        apply IH in H as (bs & -> & M & L & Cs & St).
        * exists (b :: bs). rewrite <- app_assoc. simpl. rewrite S1, M.
          refine (conj eq_refl (conj eq_refl (conj _ (conj _ _)))); [lia| |].
          { intros c [<-|I]; auto. }
          { replace (s + S (length bs)) with (S s + length bs) by lia. destruct St as [->|St]; auto. }
        * intros a I. apply in_app_or in I as [I|[<-|[]]]; [specialize (Ha a I)|]; lia.
      + destruct (check_null_batch q vcs s) eqn:N; [|discriminate]. injection H as <-.
        exists []. simpl. rewrite app_nil_r, Nat.add_0_r. apply null_spec in N.
        refine (conj eq_refl (conj eq_refl (conj _ (conj _ (or_intror (conj N _)))))).
        * lia.
        * intros b [].
        * apply try_find_missing, F.
  Qed.

  Lemma loop_none left : forall s acc,
    batches_loop q vcs left s acc = None ->
    exists t, s <= t < s + left /\ (forall b, certified q l b -> pp_seq_no b <> t) /\ ~ nothing_prepared q l t.
  Proof.
    induction left as [|left IH]; intros s acc H; simpl in H; [discriminate|].
    destruct (try_find_batch q vcs vcs s) as [b|] eqn:F.
    - apply IH in H as (t & T & C). exists t. split; [lia|exact C].
    - destruct (check_null_batch q vcs s) eqn:N; [discriminate|]. exists s.
      split; [lia|]. split; [apply try_find_missing, F|]. rewrite <- null_spec, N. discriminate.
  Qed.
End Bids.

(** A computed batch list consists of certified batches whose places are exactly the first
    [k] ones after the checkpoint, each taken once; the list stops only at the window's end
    or at a place where n-f messages have nothing prepared. *)
Theorem C22_batches_partial : forall A q log_size cp (l : list (A * view_change_msg)) bs,
  NoDup (map fst l) ->
  calc_batches q log_size cp (map snd l) = Some bs ->
  Permutation (map pp_seq_no bs) (seq (S (cp_end cp)) (length bs)) /\
  NoDup (map pp_seq_no bs) /\
  (forall b, In b bs -> certified q l b) /\
  length bs <= log_size /\
  (length bs = log_size \/
   nothing_prepared q l (S (cp_end cp) + length bs) /\
   forall b, certified q l b -> pp_seq_no b <> S (cp_end cp) + length bs).
Proof.
  intros A q log_size cp l bs D H. unfold calc_batches in H.
  destruct (batches_loop q (map snd l) log_size (S (cp_end cp)) []) as [r|] eqn:E; [|discriminate].
  injection H as <-. apply (loop_spec q l D) in E as (b0 & -> & M & L & C & St); [|intros a []]. simpl in *.
  pose proof (sorted_perm b0) as P. rewrite (Permutation_length P).
  assert (PM : Permutation (map pp_seq_no (sorted b0)) (seq (S (cp_end cp)) (length b0))).
  { rewrite <- M. apply Permutation_map, P. }
  split; [exact PM|]. split; [|split; [|split; [exact L|exact St]]].
  - apply (Permutation_NoDup (Permutation_sym PM)), seq_NoDup.
  - intros b I. apply C. apply (Permutation_in _ P), I.
Qed.

(** No list is computed only when some place of the window has neither a certified batch nor
    n-f messages without a prepared batch: more messages are needed. *)
Theorem C22_no_batches : forall A q log_size cp (l : list (A * view_change_msg)),
  NoDup (map fst l) ->
  calc_batches q log_size cp (map snd l) = None ->
  exists t, cp_end cp < t <= cp_end cp + log_size /\
    (forall b, certified q l b -> pp_seq_no b <> t) /\ ~ nothing_prepared q l t.
Proof.
  intros A q log_size cp l D H. unfold calc_batches in H.
  destruct (batches_loop q (map snd l) log_size (S (cp_end cp)) []) as [r|] eqn:E; [discriminate|].
  apply (loop_none q l D) in E as (t & T & C). exists t. split; [lia|exact C].
Qed.

(** *** Order of the messages *)
Lemma backed_perm {A} k (l m : list (A * view_change_msg)) P :
  Permutation l m -> backed k l P -> backed k m P.
Proof.
  intros Pm (n & N & K & H). exists n. split; [auto|split; auto].
  intros x X. destruct (H x X) as (vc & I & C). exists vc. split; auto. apply (Permutation_in _ Pm), I.
Qed.
Lemma certified_perm {A} q (l m : list (A * view_change_msg)) b :
  Permutation l m -> certified q l b -> certified q m b.
Proof.
  intros P ((x & vc & I & B) & W1 & W2). split; [|split; eapply backed_perm; eauto].
  exists x, vc. split; auto. apply (Permutation_in _ P), I.
Qed.

Section Perm.
  Context {A : Type} (q : quorums) (l m : list (A * view_change_msg)).
  Hypotheses (Dl : NoDup (map fst l)) (Dm : NoDup (map fst m)) (P : Permutation l m).

  Lemma try_find_perm s :
    match try_find_batch q (map snd l) (map snd l) s, try_find_batch q (map snd m) (map snd m) s with
    | Some b, Some c => pp_seq_no b = s /\ pp_seq_no c = s /\ certified q l b /\ certified q l c
    | None, None => True
    | _, _ => False
    end.
  Proof.
    destruct (try_find_batch q (map snd l) (map snd l) s) as [b|] eqn:E1;
    destruct (try_find_batch q (map snd m) (map snd m) s) as [c|] eqn:E2; auto.
    - apply (try_find_certified q l Dl) in E1 as [? ?]. apply (try_find_certified q m Dm) in E2 as [? ?].
      refine (conj _ (conj _ (conj _ _))); auto. eapply certified_perm; [apply Permutation_sym, P|assumption].
    - apply (try_find_certified q l Dl) in E1 as [S1 C]. rewrite (try_find_missing q m Dm) in E2.
      apply (E2 b); auto. eapply certified_perm; eauto.
    - apply (try_find_certified q m Dm) in E2 as [S1 C]. rewrite (try_find_missing q l Dl) in E1.
      apply (E1 c); auto. eapply certified_perm; [apply Permutation_sym, P|auto].
  Qed.

  Lemma null_perm s : check_null_batch q (map snd l) s = check_null_batch q (map snd m) s.
  Proof.
    apply eq_true_iff_eq. rewrite (null_spec q l Dl), (null_spec q m Dm). unfold nothing_prepared.
    split; apply backed_perm; [|apply Permutation_sym]; exact P.
  Qed.

  Lemma loop_perm left : forall s acc acc', map pp_seq_no acc = map pp_seq_no acc' ->
    (forall a, In a acc -> pp_seq_no a < s) -> (forall a, In a acc' -> pp_seq_no a < s) ->
    option_map (map pp_seq_no) (batches_loop q (map snd l) left s acc) =
    option_map (map pp_seq_no) (batches_loop q (map snd m) left s acc').
  Proof.
    induction left as [|left IH]; intros s acc acc' E B B'; simpl; [rewrite E; reflexivity|].
    pose proof (try_find_perm s) as T.
    destruct (try_find_batch q (map snd l) (map snd l) s) as [b|];
    destruct (try_find_batch q (map snd m) (map snd m) s) as [c|]; try tauto.
    - destruct T as (S1 & S2 & _). apply IH.
      + rewrite !set_add_new by (rewrite ?S1, ?S2; assumption). rewrite !map_app. simpl. congruence.
      + intros a. rewrite set_add_new by (rewrite S1; exact B). rewrite in_app_iff. intros [I|[<-|[]]]; [specialize (B a I)|]; lia.
      + intros a. rewrite set_add_new by (rewrite S2; exact B'). rewrite in_app_iff. intros [I|[<-|[]]]; [specialize (B' a I)|]; lia.
    - rewrite null_perm. destruct (check_null_batch q (map snd m) s); simpl; [rewrite E|]; reflexivity.
  Qed.

  Lemma loop_perm_eq left : (forall b c, certified q l b -> certified q l c -> pp_seq_no b = pp_seq_no c -> b = c) ->
    forall s acc, batches_loop q (map snd l) left s acc = batches_loop q (map snd m) left s acc.
  Proof.
    intros U. induction left as [|left IH]; intros s acc; simpl; auto.
    pose proof (try_find_perm s) as T.
    destruct (try_find_batch q (map snd l) (map snd l) s) as [b|];
    destruct (try_find_batch q (map snd m) (map snd m) s) as [c|]; try tauto.
    - destruct T as (S1 & S2 & C1 & C2). rewrite (U b c) by congruence. apply IH.
    - rewrite null_perm. reflexivity.
  Qed.
End Perm.

Lemma map_fst_perm {A B} (l m : list (A * B)) : Permutation l m -> NoDup (map fst l) -> NoDup (map fst m).
Proof. intros P. apply Permutation_NoDup, Permutation_map, P. Qed.

(** Nodes that take the same messages in different orders agree whether there is a list and
    which places it covers; they agree on the whole list if each place has at most one
    certified batch. *)
Theorem C22_same_messages : forall A q log_size cp (l m : list (A * view_change_msg)),
  NoDup (map fst l) -> Permutation l m ->
  (calc_batches q log_size cp (map snd l) = None <-> calc_batches q log_size cp (map snd m) = None) /\
  (forall bs cs, calc_batches q log_size cp (map snd l) = Some bs ->
     calc_batches q log_size cp (map snd m) = Some cs ->
     Permutation (map pp_seq_no bs) (map pp_seq_no cs)) /\
  ((forall b c, certified q l b -> certified q l c -> pp_seq_no b = pp_seq_no c -> b = c) ->
     calc_batches q log_size cp (map snd l) = calc_batches q log_size cp (map snd m)).
Proof.
  intros A q log_size cp l m D P. pose proof (map_fst_perm l m P D) as D'.
  pose proof (loop_perm q l m D D' P log_size (S (cp_end cp)) [] [] eq_refl) as H.
  specialize (H (fun a (i : In a []) => match i with end) (fun a (i : In a []) => match i with end)).
  unfold calc_batches.
  split; [|split].
  - destruct (batches_loop q (map snd l) _ _ _), (batches_loop q (map snd m) _ _ _); simpl in H;
      try discriminate; split; congruence.
  - intros bs cs H1 H2.
    destruct (batches_loop q (map snd l) _ _ _) as [x|], (batches_loop q (map snd m) _ _ _) as [y|]; simpl in H;
      try discriminate.
    injection H1 as <-. injection H2 as <-. injection H as H.
    apply perm_trans with (map pp_seq_no x); [apply Permutation_map, sorted_perm|]. rewrite H.
    apply Permutation_map, Permutation_sym, sorted_perm.
  - intros U. rewrite (loop_perm_eq q l m D D' P log_size U). reflexivity.
Qed.

(** *** Order of the batches in the list *)
Lemma bid_leb_total a b : bid_leb a b = true \/ bid_leb b a = true.
Proof.
  unfold bid_leb. rewrite (Nat.eqb_sym (view_no b)), (Nat.eqb_sym (pp_view_no b)), (Nat.eqb_sym (pp_seq_no b)).
  destruct (view_no a =? view_no b); [|rewrite !Nat.leb_le; lia].
  destruct (pp_view_no a =? pp_view_no b); [|rewrite !Nat.leb_le; lia].
  destruct (pp_seq_no a =? pp_seq_no b); rewrite !Nat.leb_le; lia.
Qed.

Lemma insert_below b l : (forall c, In c l -> bid_leb b c = true) -> insert b l = b :: l.
Proof. destruct l as [|c l]; simpl; auto. intros H. rewrite (H c (or_introl eq_refl)). reflexivity. Qed.

Lemma sorted_ascending l :
  (forall i j b c, nth_error l i = Some b -> nth_error l j = Some c -> i < j -> bid_leb b c = true) ->
  sorted l = l.
Proof.
  induction l as [|b l IH]; simpl; auto. intros H. rewrite IH.
  - apply insert_below. intros c I. apply In_nth_error in I as [j J].
    apply (H 0 (S j)); auto. lia.
  - intros i j c d I J L. apply (H (S i) (S j)); auto. lia.
Qed.

(** The list is in ascending order of places if later places were never prepared in earlier
    views than earlier places ... *)
Theorem C22_ascending_partial : forall A q log_size cp (l : list (A * view_change_msg)) bs,
  NoDup (map fst l) ->
  calc_batches q log_size cp (map snd l) = Some bs ->
  (forall b c, certified q l b -> certified q l c -> pp_seq_no b < pp_seq_no c ->
     view_no b <= view_no c /\ pp_view_no b <= pp_view_no c) ->
  map pp_seq_no bs = seq (S (cp_end cp)) (length bs) /\
  prev_view_prepare_cert cp bs = cp_end cp + length bs.
Proof.
  intros A q log_size cp l bs D H Mono. unfold calc_batches in H.
  destruct (batches_loop q (map snd l) log_size (S (cp_end cp)) []) as [r|] eqn:E; [|discriminate].
  injection H as <-. apply (loop_spec q l D) in E as (b0 & -> & M & L & C & St); [|intros a []]. simpl in *.
  assert (NE : forall i b, nth_error b0 i = Some b -> pp_seq_no b = S (cp_end cp) + i).
  { intros i b I. pose proof (map_nth_error pp_seq_no _ _ I) as N. rewrite M in N.
    assert (i < length b0) by (apply nth_error_Some; congruence).
    apply nth_error_nth with (d := 0) in N. rewrite seq_nth in N by lia. lia. }
  rewrite sorted_ascending.
  - split; [exact M|]. unfold prev_view_prepare_cert.
    destruct (rev b0) as [|b rest] eqn:R.
    + apply (f_equal (@rev _)) in R. rewrite rev_involutive in R. subst. simpl. lia.
    + apply (f_equal (@rev _)) in R. rewrite rev_involutive in R. simpl in R.
      rewrite (NE (length (rev rest)) b).
      * rewrite R, app_length. simpl. lia.
      * rewrite R, nth_error_app2, Nat.sub_diag by lia. reflexivity.
  - intros i j b c I J Lt. pose proof (NE i b I) as E1. pose proof (NE j c J) as E2.
    destruct (Mono b c) as [V W]; [apply C; eapply nth_error_In; eauto|apply C; eapply nth_error_In; eauto|lia|].
    unfold bid_leb. destruct (view_no b =? view_no c); [|apply Nat.leb_le, V].
    destruct (pp_view_no b =? pp_view_no c); [|apply Nat.leb_le, W].
    destruct (Nat.eqb_spec (pp_seq_no b) (pp_seq_no c)); [lia|]. apply Nat.leb_le. lia.
Qed.

(** ... but in general it is not: the code sorts by view first.  Two batches, 11 and 12, were
    prepared everywhere in view 0; after a first view change only 11 was prepared again, in
    view 1, before the next view change.  All four nodes are correct and report the same.
    The list is [12; 11], and the last batch of the previous view is taken to be 11. *)
Definition cp10 : cp_msg := Checkpoint 0 0 0 10 77.
Definition vc_mixed : view_change_msg :=
  ViewChange 2 10 [BatchID 0 0 12 102; BatchID 1 0 11 101]
             [BatchID 0 0 12 102; BatchID 1 0 11 101] [cp10].

Theorem C22_ascending_refuted : exists (l : list (nat * view_change_msg)) cp bs,
  NoDup (map fst l) /\ length l = 4 /\
  calc_checkpoint (Quorums 4) (map snd l) = Some cp /\
  calc_batches (Quorums 4) 300 cp (map snd l) = Some bs /\
  map pp_seq_no bs = [12; 11] /\ prev_view_prepare_cert cp bs = 11.
Proof.
  exists [(1, vc_mixed); (2, vc_mixed); (3, vc_mixed); (4, vc_mixed)], cp10,
    [BatchID 0 0 12 102; BatchID 1 0 11 101].
  split; [repeat constructor; simpl; intuition discriminate|]. repeat split; vm_compute; reflexivity.
Qed.

(** Nodes that take the same messages in different orders can compute different lists, so a
    correct primary's NewView may be rejected.  Node 1 prepared batch 101 at place 11 in view
    0, node 2 prepared batch 102 there in view 1, nodes 3 and 4 prepared neither.  (The
    primary takes the messages in order of arrival, the others in order of names.) *)
Definition vcA := ViewChange 2 10 [BatchID 0 0 11 101] [BatchID 0 0 11 101] [cp10].
Definition vcB := ViewChange 2 10 [BatchID 1 1 11 102] [BatchID 1 1 11 102] [cp10].
Definition vcC := ViewChange 2 10 [] [BatchID 0 0 11 101] [cp10].
Definition vcD := ViewChange 2 10 [] [BatchID 1 1 11 102] [cp10].

Theorem C22_same_list_refuted : exists (l m : list (nat * view_change_msg)) cp bs cs,
  NoDup (map fst l) /\ Permutation l m /\
  calc_checkpoint (Quorums 4) (map snd l) = Some cp /\
  calc_checkpoint (Quorums 4) (map snd m) = Some cp /\
  calc_batches (Quorums 4) 300 cp (map snd l) = Some bs /\
  calc_batches (Quorums 4) 300 cp (map snd m) = Some cs /\
  map pp_digest bs = [101] /\ map pp_digest cs = [102] /\
  new_view_valid (Quorums 4) 300 (map snd m) cp bs = false.
Proof.
  exists [(1, vcA); (2, vcB); (3, vcC); (4, vcD)], [(2, vcB); (1, vcA); (3, vcC); (4, vcD)], cp10,
    [BatchID 0 0 11 101], [BatchID 1 1 11 102].
  split; [repeat constructor; simpl; intuition discriminate|]. split; [apply perm_swap|].
  repeat split; vm_compute; reflexivity.
Qed.

(** Likewise two checkpoints with the same end can both be supported, and the first one met
    is chosen. *)
Theorem C23_same_checkpoint_refuted : exists (l m : list (nat * view_change_msg)) c d,
  NoDup (map fst l) /\ Permutation l m /\
  calc_checkpoint (Quorums 4) (map snd l) = Some c /\
  calc_checkpoint (Quorums 4) (map snd m) = Some d /\ c <> d.
Proof.
  set (c1 := Checkpoint 0 0 0 10 77). set (c2 := Checkpoint 0 1 0 10 78).
  set (v1 := ViewChange 2 0 [] [] [c1; c2]). set (v2 := ViewChange 2 0 [] [] [c2; c1]).
  exists [(1, v1); (2, v2); (3, v1); (4, v2)], [(2, v2); (1, v1); (3, v1); (4, v2)], c1, c2.
  split; [repeat constructor; simpl; intuition discriminate|]. split; [apply perm_swap|].
  repeat split; try (vm_compute; reflexivity). discriminate.
Qed.

(** ** C21: batches that may have been ordered survive *)
Lemma same_sender {A} (l : list (A * view_change_msg)) x v w :
  NoDup (map fst l) -> In (x, v) l -> In (x, w) l -> v = w.
Proof.
  induction l as [|[y u] l IH]; simpl; [tauto|]. intros D H1 H2. inversion D; subst.
  destruct H1 as [E1|H1], H2 as [E2|H2]; [congruence| | |auto].
  - exfalso. injection E1 as -> ->. apply H3. apply (in_map fst) in H2. exact H2.
  - exfalso. injection E2 as -> ->. apply H3. apply (in_map fst) in H1. exact H1.
Qed.

Section Survival.
  Context {A : Type} (eqd : forall x y : A, {x = y} + {x <> y}).
  (** [n] nodes, at most [f] of them faulty, and the ViewChange messages of some of them *)
  Variables (nodes faulty : list A) (l : list (A * view_change_msg)).
  Hypotheses (Dn : NoDup nodes) (N1 : 1 <= length nodes)
    (F : length faulty <= getMaxFailures (length nodes))
    (D : NoDup (map fst l)) (I : incl (map fst l) nodes).
  Let q := Quorums (length nodes).

  (** Batch [b] has n-f Commits, in view [view_no b]:
      - a correct node that sent one reports it, unless its checkpoint covers it, as prepared
        in that view or a later one;
      - a correct node pre-prepared nothing else at that place in a later view.
      Within one view this is how a correct replica behaves as long as it takes PrePrepares
      only for batches it has not ordered (Tpc_Props); C42 shows the exception. *)
  Definition may_be_ordered (b : batch_id) : Prop :=
    exists committers, members nodes committers /\ commit q <= length committers /\
      (forall x vc, In x committers -> ~ In x faulty -> In (x, vc) l -> vc_stable vc < pp_seq_no b ->
         exists c, In c (vc_prepared vc) /\ same_batch c b /\ view_no b <= view_no c) /\
      (forall x vc c, ~ In x faulty -> In (x, vc) l -> In c (vc_preprepared vc) ->
         pp_seq_no c = pp_seq_no b -> view_no b < view_no c -> same_batch c b).

  Lemma honest_witness names P committers :
    members nodes committers -> commit q <= length committers ->
    NoDup names -> strong q <= length names ->
    (forall x, In x names -> exists vc, In (x, vc) l /\ P vc) ->
    exists x vc, In x committers /\ ~ In x faulty /\ In (x, vc) l /\ P vc.
  Proof.
    intros M K Nd L H.
    assert (M' : members nodes names).
    { split; auto. intros x X. destruct (H x X) as (vc & V & _). apply I. apply (in_map fst) in V. exact V. }
    destruct (C17_strong_quorums_intersect eqd nodes faulty Dn N1 F (strong q)) with (s1 := committers) (s2 := names)
      as (x & X1 & X2 & X3); auto.
    - left. reflexivity.
    - apply Nat.leb_le. exact K.
    - apply Nat.leb_le. exact L.
    - destruct (H x X2) as (vc & V & W). exists x, vc. auto.
  Qed.

  Lemma not_null b : may_be_ordered b -> ~ nothing_prepared q l (pp_seq_no b).
  Proof.
    intros (cs & M & K & H1 & _) (names & Nd & L & H).
    destruct (honest_witness names _ cs M K Nd L H) as (x & vc & X1 & X2 & X3 & St & X4).
    destruct (H1 x vc X1 X2 X3 St) as (c & C1 & (C2 & _) & _). apply (X4 c). split; auto.
  Qed.

  Lemma certified_is_it b c : may_be_ordered b -> certified q l c -> pp_seq_no c = pp_seq_no b ->
    same_batch c b /\ view_no b <= view_no c.
  Proof.
    intros (cs & M & K & H1 & H2) (_ & (names & Nd & L & H) & (ws & Wd & Wl & W)) E.
    destruct (honest_witness names _ cs M K Nd L H) as (x & vc & X1 & X2 & X3 & St & X4).
    rewrite E in St. destruct (H1 x vc X1 X2 X3 St) as (d & D1 & D2 & D3).
    destruct (X4 d) as [V|[V SB]].
    - split; [exact D1|]. destruct D2 as [-> _]. auto.
    - destruct (C17_weak_quorums_have_honest eqd nodes faulty N1 F (weak q)) with (s := ws) as (y & Y1 & Y2).
      + left. reflexivity.
      + exact Wd.
      + apply Nat.leb_le. exact Wl.
      + destruct (W y Y1) as (vc' & V' & e & E1 & (E2 & E3 & E4) & E5).
        assert (SB : same_batch e b). { apply (H2 y vc'); auto; [congruence|lia]. }
        destruct SB as (B1 & B2 & B3). split; [|lia]. unfold same_batch. split; [congruence|]. split; congruence.
    - destruct D2 as (B1 & B2 & B3), SB as (B4 & B5 & B6). split; [|lia]. unfold same_batch.
      split; [congruence|]. split; congruence.
  Qed.

  (** If every place between the checkpoint and [s] has a batch that may have been ordered
      (ordering goes by places, C18, so this holds when [s] was ordered), any computed list
      has that batch at [s]. *)
  Theorem C21_ordered_batches_survive_partial : forall log_size cp bs s (ordered : nat -> batch_id),
    (forall t, cp_end cp < t <= s -> pp_seq_no (ordered t) = t /\ may_be_ordered (ordered t)) ->
    cp_end cp < s <= cp_end cp + log_size ->
    calc_batches q log_size cp (map snd l) = Some bs ->
    exists b, In b bs /\ pp_seq_no b = s /\ same_batch b (ordered s) /\
      view_no (ordered s) <= view_no b /\
      forall c, In c bs -> pp_seq_no c = s -> c = b.
  Proof.
    intros log_size cp bs s ordered O R H.
    destruct (C22_batches_partial A q log_size cp l bs D H) as (P & ND & C & L & St).
    assert (Ls : s < S (cp_end cp) + length bs).
    { destruct (le_lt_dec (S (cp_end cp) + length bs) s) as [X|X]; [|exact X]. exfalso.
      destruct St as [St|[St _]]; [lia|].
      destruct (O (S (cp_end cp) + length bs)) as [E M]; [lia|].
      apply (not_null _ M). rewrite E. exact St. }
    assert (In s (map pp_seq_no bs)) as Is.
    { apply (Permutation_in _ (Permutation_sym P)), in_seq. lia. }
    apply in_map_iff in Is as (b & E & Ib). exists b.
    destruct (O s ltac:(lia)) as [E' M].
    destruct (certified_is_it (ordered s) b M (C b Ib)) as [SB V]; [congruence|].
    repeat (split; auto; try exact SB). intros c Ic Ec.
    clear -ND Ib Ic E Ec. induction bs as [|x bs IH]; [destruct Ib|]. simpl in ND. inversion ND; subst.
    destruct Ib as [->|Ib], Ic as [->|Ic]; auto.
    - exfalso. apply H1. rewrite <- Ec. apply in_map, Ic.
    - exfalso. apply H1. rewrite Ec. apply in_map, Ib.
  Qed.
End Survival.

(** The hypotheses are met by four nodes, one of them faulty (number 4, claiming that another
    batch was prepared in a later view), when batch 101 got the Commits of nodes 1, 2, 3. *)
Definition vc_good := ViewChange 1 10 [BatchID 0 0 11 101] [BatchID 0 0 11 101] [cp10].
Definition vc_liar := ViewChange 1 10 [BatchID 5 5 11 666] [BatchID 5 5 11 666] [cp10].
Example survival_case :
  let l := [(4, vc_liar); (1, vc_good); (2, vc_good); (3, vc_good)] in
  may_be_ordered [1; 2; 3; 4] [4] l (BatchID 0 0 11 101) /\
  calc_checkpoint (Quorums 4) (map snd l) = Some cp10 /\
  calc_batches (Quorums 4) 300 cp10 (map snd l) = Some [BatchID 0 0 11 101].
Proof.
  split; [|split; vm_compute; reflexivity].
  exists [1; 2; 3]. split; [split; [repeat constructor; simpl; intuition discriminate|]|].
  { intros x X. simpl in *. tauto. }
  split; [simpl; lia|]. split.
  - intros x vc X Xf In1 _. simpl in In1. exists (BatchID 0 0 11 101).
    destruct In1 as [E|[E|[E|[E|[]]]]]; injection E as <- <-;
      [exfalso; apply Xf; simpl; auto| | |]; (split; [left; reflexivity|]); (split; [split; [|split]; reflexivity|simpl; lia]).
  - intros x vc c Xf In1 Ic Ec V. simpl in In1.
    destruct In1 as [E|[E|[E|[E|[]]]]]; injection E as <- <-;
      [exfalso; apply Xf; simpl; auto| | |]; destruct Ic as [<-|[]]; simpl in V; lia.
Qed.

(** The code checks neither that the ViewChange messages named by a NewView are n-f in number
    nor that they come from different nodes.  A faulty primary (node 4) names its own message
    three times; every correct node accepts the NewView and forgets batch 101, although it
    has the Commits of nodes 1, 2, 3. *)
Definition vc_amnesia := ViewChange 1 10 [] [] [cp10].
Theorem C21_repeated_messages_refuted :
  exists (listed : list (nat * view_change_msg)) all_messages b cp,
  incl listed all_messages /\ NoDup (map fst all_messages) /\
  may_be_ordered [1; 2; 3; 4] [4] all_messages b /\
  cp_end cp < pp_seq_no b /\
  new_view_valid (Quorums 4) 300 (map snd listed) cp [] = true.
Proof.
  exists [(4, vc_amnesia); (4, vc_amnesia); (4, vc_amnesia)],
    [(1, vc_good); (2, vc_good); (3, vc_good); (4, vc_amnesia)], (BatchID 0 0 11 101), cp10.
  split; [intros x X; simpl in *; tauto|].
  split; [repeat constructor; simpl; intuition discriminate|].
  split; [|split; [simpl; lia|vm_compute; reflexivity]].
  exists [1; 2; 3]. split; [split; [repeat constructor; simpl; intuition discriminate|]|].
  { intros x X. simpl in *. tauto. }
  split; [simpl; lia|]. split.
  - intros x vc X Xf In1 _. simpl in In1. exists (BatchID 0 0 11 101).
    destruct In1 as [E|[E|[E|[E|[]]]]]; injection E as <- <-;
      [ | | |exfalso; apply Xf; simpl; auto]; (split; [left; reflexivity|]); (split; [split; [|split]; reflexivity|simpl; lia]).
  - intros x vc c Xf In1 Ic Ec V. simpl in In1.
    destruct In1 as [E|[E|[E|[E|[]]]]]; injection E as <- <-;
      [ | | |exfalso; apply Xf; simpl; auto]; destruct Ic as [<-|[]]; simpl in V; lia.
Qed.

Print Assumptions C21_ordered_batches_survive_partial.
Print Assumptions C21_repeated_messages_refuted.
Print Assumptions C22_batches_partial.
Print Assumptions C22_no_batches.
Print Assumptions C22_same_messages.
Print Assumptions C22_ascending_partial.
Print Assumptions C22_ascending_refuted.
Print Assumptions C22_same_list_refuted.
Print Assumptions C23_checkpoint.
Print Assumptions C23_correct_nodes_have_it.
Print Assumptions C23_same_checkpoint_refuted.
