(** Proofs about the removal and restoration of backup instances. *)
From Coq Require Import List Arith Bool Lia Sorted.
From Verif Require Import Base Dict Backup_Model Backup_Spec.
Import ListNotations.

(** ** Dictionaries *)
Lemma has_in {V} i (d : dict V) : has i d = true <-> In i (keys d).
Proof. unfold has. apply mem_in. Qed.
Lemma has_false {V} i (d : dict V) : has i d = false <-> ~ In i (keys d).
Proof. rewrite <- has_in. destruct (has i d); split; intros H; try discriminate; try reflexivity; intuition discriminate. Qed.
Lemma get_put {V} k (v : V) d k' : get k' (put k v d) = if k' =? k then Some v else get k' d.
Proof.
  induction d as [|[a w] d IH]; cbn [put get].
  - destruct (k' =? k); reflexivity.
  - destruct (Nat.eqb_spec k a) as [->|N]; cbn [get].
    + destruct (k' =? a); reflexivity.
    + destruct (k <? a); cbn [get]; [reflexivity|].
      rewrite IH. destruct (Nat.eqb_spec k' a) as [Ea|Na]; [|reflexivity].
      destruct (Nat.eqb_spec k' k); [congruence|reflexivity].
Qed.
Lemma get_has {V} k (d : dict V) : has k d = match get k d with Some _ => true | None => false end.
Proof.
  destruct (get k d) as [v|] eqn:E.
  - apply has_in. apply get_in in E. apply (in_map fst) in E. exact E.
  - apply has_false. apply get_none. exact E.
Qed.
Lemma has_put {V} k (v : V) d k' : has k' (put k v d) = (k' =? k) || has k' d.
Proof. rewrite !get_has, get_put. destruct (k' =? k); reflexivity. Qed.
Lemma has_del {V} k (d : dict V) k' : has k' (del k d) = negb (k' =? k) && has k' d.
Proof. rewrite !get_has, get_del. destruct (k' =? k); reflexivity. Qed.
Lemma keys_del {V} k (d : dict V) : keys (del k d) = filter (fun x => negb (x =? k)) (keys d).
Proof.
  unfold keys, del. induction d as [|[a w] d IH]; [reflexivity|]. cbn [filter map fst].
  destruct (negb (a =? k)); cbn [map fst]; rewrite IH; reflexivity.
Qed.
Lemma keys_set_old {V} k (v : V) d : In k (keys d) -> keys (set k v d) = keys d.
Proof.
  unfold keys. induction d as [|[a w] d IH]; cbn [set map fst]; [contradiction|].
  intros [H|H].
  - rewrite H, Nat.eqb_refl. cbn [map fst]. reflexivity.
  - destruct (Nat.eqb_spec k a) as [->|N]; cbn [map fst]; [reflexivity|]. rewrite IH by exact H. reflexivity.
Qed.
Lemma has_set_lost j i x s : has j (reps (set_lost i x s)) = has j (reps s).
Proof.
  unfold set_lost. destruct (get i (reps s)) as [r|] eqn:E; [|reflexivity]. cbn [reps].
  rewrite !get_has, get_set. destruct (j =? i) eqn:Eji; [|reflexivity].
  apply Nat.eqb_eq in Eji. subst. rewrite E. reflexivity.
Qed.
Lemma keys_set_lost i x s : keys (reps (set_lost i x s)) = keys (reps s).
Proof.
  unfold set_lost. destruct (get i (reps s)) as [r|] eqn:E; [|reflexivity]. cbn [reps].
  apply keys_set_old. apply get_in in E. apply (in_map fst) in E. exact E.
Qed.

(** ** Votes *)
Lemma count_app i a b : count i (a ++ b) = count i a + count i b.
Proof. unfold count. rewrite filter_app, app_length. reflexivity. Qed.
Lemma count_one i x : count i [x] = if i =? x then 1 else 0.
Proof. unfold count. cbn [filter]. destruct (i =? x); reflexivity. Qed.
Lemma count_pos i l : 0 < count i l <-> In i l.
Proof.
  unfold count. split.
  - intros H. destruct (filter (Nat.eqb i) l) as [|x r] eqn:E; [cbn in H; lia|].
    assert (In x (filter (Nat.eqb i) l)) as X by (rewrite E; left; reflexivity).
    apply filter_In in X. destruct X as [X1 X2]. apply Nat.eqb_eq in X2. subst. exact X1.
  - intros H. assert (In i (filter (Nat.eqb i) l)) as X by (apply filter_In; split; [exact H|apply Nat.eqb_refl]).
    destruct (filter (Nat.eqb i) l); [contradiction|cbn; lia].
Qed.

Definition counts (d : dict nat) (L : list nat) : Prop :=
  NoDup (keys d) /\ (forall x, get_or x 0 d = count x L) /\ (forall x, In x (keys d) <-> In x L).

Lemma counts_nil : counts [] [].
Proof. split; [constructor|]. split; [reflexivity|]. intros x. split; intros H; exact H. Qed.
Lemma counts_add d L frm : counts d L -> counts (set frm (S (get_or frm 0 d)) d) (L ++ [frm]).
Proof.
  intros (N & C & K). split; [apply nodup_set; exact N|]. split.
  - intros x. unfold get_or. rewrite get_set, count_app, count_one. destruct (x =? frm) eqn:E.
    + apply Nat.eqb_eq in E. subst. rewrite <- C. unfold get_or. lia.
    + rewrite <- C. unfold get_or. lia.
  - intros x. unfold keys. rewrite set_keys, in_app_iff. fold (keys d). rewrite K. cbn [In]. intuition.
Qed.
Lemma counts_length d L : counts d L -> length d = length (nodup Nat.eq_dec L).
Proof.
  intros (N & _ & K). rewrite <- (map_length fst). apply Nat.le_antisymm; apply NoDup_incl_length.
  - exact N.
  - intros x H. apply nodup_In. apply K. exact H.
  - apply NoDup_nodup.
  - intros x H. apply nodup_In in H. apply K. exact H.
Qed.
Lemma counts_enough c s d L : counts d L ->
  (reached s (length d) || (has (me c) d && reached s (get_or (me c) 0 d)) = true <-> enough c (flt s) L).
Proof.
  intros C. pose proof (counts_length d L C) as Hl. destruct C as (N & C & K).
  unfold reached, enough. rewrite orb_true_iff, andb_true_iff, !Nat.leb_le, has_in, K, C, Hl.
  rewrite <- count_pos. lia.
Qed.

Lemma length_nodup_app L L' : length (nodup Nat.eq_dec L) <= length (nodup Nat.eq_dec (L ++ L')).
Proof.
  apply NoDup_incl_length; [apply NoDup_nodup|]. intros x H. apply nodup_In in H. apply nodup_In.
  apply in_app_iff. left. exact H.
Qed.
Lemma enough_app c f L L' : enough c f L -> enough c f (L ++ L').
Proof.
  unfold enough. rewrite count_app. pose proof (length_nodup_app L L'). lia.
Qed.

(** the fields that voting does not touch *)
Lemma remove_flt i s : flt (remove_replica i s) = flt s /\ view (remove_replica i s) = view s /\ votes (remove_replica i s) = votes s.
Proof. unfold remove_replica. destruct (has i (reps s)); repeat split; reflexivity. Qed.
Lemma remove_has i s j : has j (reps (remove_replica i s)) = negb (j =? i) && has j (reps s).
Proof.
  unfold remove_replica. destruct (has i (reps s)) eqn:E; cbn [reps].
  - apply has_del.
  - destruct (Nat.eqb_spec j i) as [->|N]; [exact E|reflexivity].
Qed.
Lemma vote_flt c frm s i : flt (vote c frm s i) = flt s /\ view (vote c frm s i) = view s.
Proof.
  unfold vote. destruct (has i (reps s)); [|split; reflexivity]. cbv zeta.
  match goal with |- context [if ?b then _ else _] => destruct b end; [|split; reflexivity].
  match goal with |- context [remove_replica i ?x] => set (s1 := x); destruct (remove_flt i s1) as (A & B & _) end.
  split; [exact A|exact B].
Qed.

(** the state of affairs of an instance: it is there as long as there are not enough votes and it was not dropped *)
Definition standing (c : config) (i : nat) (s : node) (L : list nat) (D : Prop) : Prop :=
  (has i (reps s) = true -> counts (get_or i [] (votes s)) L /\ ~ enough c (flt s) L /\ ~ D) /\
  (has i (reps s) = false -> enough c (flt s) L \/ D).

Lemma standing_vote_other c frm i s j L D : j <> i -> standing c i s L D -> standing c i (vote c frm s j) L D.
Proof.
  intros Nji. unfold vote. destruct (has j (reps s)) eqn:Ej; [|tauto]. cbv zeta.
  set (d' := set frm _ _). set (s1 := with_votes s (set j d' (votes s))).
  assert (get_or i [] (set j d' (votes s)) = get_or i [] (votes s)) as Hg.
  { unfold get_or. rewrite get_set. destruct (Nat.eqb_spec i j); [congruence|reflexivity]. }
  intros [H1 H2].
  destruct (reached s1 (length d') || _) eqn:E.
  - assert (flt (with_votes (remove_replica j s1) (del j (votes (remove_replica j s1)))) = flt s) as Hf.
    { unfold with_votes at 1. cbn [flt]. destruct (remove_flt j s1) as (A & _). rewrite A. reflexivity. }
    assert (has i (reps (with_votes (remove_replica j s1) (del j (votes (remove_replica j s1))))) = has i (reps s)) as Hh.
    { unfold with_votes at 1. cbn [reps]. rewrite remove_has. destruct (Nat.eqb_spec i j); [congruence|reflexivity]. }
    unfold standing. rewrite Hf, Hh. split; [|exact H2]. intros E1. destruct (H1 E1) as (A & B & C).
    split; [|split; assumption]. unfold with_votes at 1. cbn [votes]. destruct (remove_flt j s1) as (_ & _ & F). rewrite F.
    unfold s1 at 1, with_votes. cbn [votes]. unfold get_or. rewrite get_del. destruct (Nat.eqb_spec i j); [congruence|].
    unfold get_or in Hg. rewrite Hg. exact A.
  - unfold standing. unfold s1 at 1 2 3 4, with_votes. cbn [reps flt votes]. rewrite Hg. split; [exact H1|exact H2].
Qed.

Lemma standing_vote_own c frm i s L D : standing c i s L D -> standing c i (vote c frm s i) (L ++ [frm]) D.
Proof.
  unfold vote. destruct (has i (reps s)) eqn:Ei.
  2:{ intros [H1 H2]. unfold standing. rewrite Ei. split; [discriminate|]. intros _. destruct (H2 Ei); [left; apply enough_app; assumption|right; assumption]. }
  cbv zeta. set (d' := set frm _ _). set (s1 := with_votes s (set i d' (votes s))).
  intros [H1 _]. destruct (H1 Ei) as (A & B & C).
  assert (counts d' (L ++ [frm])) as Cd by (apply counts_add; exact A).
  pose proof (counts_enough c s1 d' _ Cd) as En. change (flt s1) with (flt s) in En.
  destruct (reached s1 (length d') || _) eqn:E.
  - assert (enough c (flt s) (L ++ [frm])) as X by (apply En; reflexivity).
    set (s2 := with_votes (remove_replica i s1) _).
    assert (flt s2 = flt s) as Hf by (destruct (remove_flt i s1) as (Af & _); exact Af).
    assert (has i (reps s2) = false) as Hh by (unfold s2, with_votes; cbn [reps]; rewrite remove_has, Nat.eqb_refl; reflexivity).
    unfold standing. rewrite Hf, Hh. split; [discriminate|]. intros _. left. exact X.
  - unfold standing. unfold s1 at 1 2 3 4, with_votes. cbn [reps flt votes]. rewrite Ei. split; [|discriminate]. intros _.
    split; [|split; [|exact C]].
    + unfold get_or. rewrite get_set, Nat.eqb_refl. exact Cd.
    + intros X. apply En in X. discriminate.
Qed.

Lemma standing_votes c frm i l s L D : standing c i s L D ->
  standing c i (fold_left (vote c frm) l s) (L ++ repeat frm (count i l)) D.
Proof.
  revert s L. induction l as [|j l IH]; intros s L H.
  - cbn. rewrite app_nil_r. exact H.
  - cbn [fold_left]. unfold count. cbn [filter]. destruct (Nat.eqb_spec i j) as [E|N].
    + subst j. cbn [length repeat]. pose proof (IH _ _ (standing_vote_own c frm i s L D H)) as X.
      rewrite <- app_assoc in X. exact X.
    + apply (IH _ _ (standing_vote_other c frm i s j L D (not_eq_sym N) H)).
Qed.

Lemma count0_exists l : existsb (Nat.eqb 0) l = negb (count 0 l =? 0).
Proof.
  destruct (existsb (Nat.eqb 0) l) eqn:E.
  - apply mem_in in E. apply count_pos in E. destruct (Nat.eqb_spec (count 0 l) 0); [lia|reflexivity].
  - destruct (Nat.eqb_spec (count 0 l) 0); [reflexivity|]. assert (0 < count 0 l) as X by lia. apply count_pos in X.
    apply mem_in in X. congruence.
Qed.
Lemma refused_spec c s m : refused c s m = negb ((v_no m =? view s) && (count 0 (insts m) =? 0) && by_quorum c (reason m)).
Proof.
  unfold refused, by_quorum. rewrite count0_exists. unfold DISCONNECTED, DEGRADED.
  destruct (v_no m =? view s); [|reflexivity]. destruct (count 0 (insts m) =? 0); [|reflexivity].
  destruct (Nat.eqb_spec (reason m) 39) as [E|N].
  - rewrite E. cbn. destruct (on_disconnected c); reflexivity.
  - destruct (reason m =? 40); destruct (on_degraded c); reflexivity.
Qed.

Lemma standing_process c m frm i s L D : standing c i s L D ->
  standing c i (process c m frm s)
    (L ++ (if (v_no m =? view s) && (count 0 (insts m) =? 0) && by_quorum c (reason m) then repeat frm (count i (insts m)) else [])) D.
Proof.
  intros H. unfold process. rewrite refused_spec. destruct (_ && by_quorum c (reason m)); cbn [negb].
  - apply standing_votes. exact H.
  - rewrite app_nil_r. exact H.
Qed.

(** a node that only differs in what is scheduled and sent *)
Definition same (s s' : node) : Prop :=
  keys (reps s) = keys (reps s') /\ votes s = votes s' /\ view s = view s' /\ flt s = flt s'.
Lemma standing_same c i s s' L D : same s s' -> standing c i s L D -> standing c i s' L D.
Proof.
  intros (A & B & _ & F). unfold standing, has. rewrite <- A, <- B, <- F. tauto.
Qed.

Lemma drop_all is s : flt (fold_left (fun s i => remove_replica i s) is s) = flt s /\
  votes (fold_left (fun s i => remove_replica i s) is s) = votes s /\
  view (fold_left (fun s i => remove_replica i s) is s) = view s /\
  forall j, has j (reps (fold_left (fun s i => remove_replica i s) is s)) = negb (existsb (Nat.eqb j) is) && has j (reps s).
Proof.
  revert s. induction is as [|a is IH]; intros s; cbn [fold_left existsb].
  - repeat split; reflexivity.
  - destruct (IH (remove_replica a s)) as (A & B & C & E). destruct (remove_flt a s) as (F & G & V).
    split; [congruence|]. split; [congruence|]. split; [congruence|]. intros j. rewrite E, remove_has.
    destruct (j =? a), (existsb (Nat.eqb j) is); reflexivity.
Qed.

Lemma standing_drop c i is s L D (D' : Prop) : (D' <-> D \/ In i is) -> standing c i s L D ->
  standing c i (fold_left (fun s i => remove_replica i s) is s) L D'.
Proof.
  intros HD [H1 H2]. destruct (drop_all is s) as (A & B & _ & E). unfold standing. rewrite A, B, E.
  destruct (existsb (Nat.eqb i) is) eqn:X; cbn [negb andb].
  - apply mem_in in X. split; [discriminate|]. intros _. right. apply HD. right. exact X.
  - assert (~ In i is) as X' by (intros Y; apply mem_in in Y; congruence). split.
    + intros Hh. destruct (H1 Hh) as (P & Q & R). split; [exact P|]. split; [exact Q|]. rewrite HD. tauto.
    + intros Hh. destruct (H2 Hh); [left; assumption|right; apply HD; left; assumption].
Qed.

Lemma standing_weaken c i s L (D D' : Prop) : (D' <-> D) -> standing c i s L D -> standing c i s L D'.
Proof. intros H [A B]. split; [intros X; destruct (A X) as (P & Q & R); rewrite H; tauto|intros X; rewrite H; apply B; exact X]. Qed.

Lemma send_same c ch is why s : exists s',
  (s' = process c (Msg (view s) is why) (me c) s \/ (is = [] /\ s' = s)) /\ same s' (send c ch is why s).
Proof.
  unfold send. destruct (negb ch && match is with [] => true | _ => false end) eqn:E.
  - exists s. split; [|repeat split; reflexivity]. right. apply andb_true_iff in E. destruct is; [split; reflexivity|destruct E; discriminate].
  - eexists. split; [left; reflexivity|]. repeat split; reflexivity.
Qed.
Lemma standing_send c ch is why i s L D : by_quorum c why = true -> standing c i s L D ->
  standing c i (send c ch is why s) (L ++ (if count 0 is =? 0 then repeat (me c) (count i is) else [])) D.
Proof.
  intros Hq H. destruct (send_same c ch is why s) as (s' & [->|[-> ->]] & Hs).
  - apply (standing_same c i _ _ _ _ Hs). pose proof (standing_process c (Msg (view s) is why) (me c) i s L D H) as X.
    cbn [v_no insts reason] in X. rewrite Nat.eqb_refl, Hq, andb_true_r in X. exact X.
  - apply (standing_same c i _ _ _ _ Hs). cbn. rewrite app_nil_r. exact H.
Qed.

Lemma take_due_spec i t l : match take_due i t l with
  | Some _ => existsb (fun x => (snd x =? i) && (fst x <=? t)) l = true
  | None => existsb (fun x => (snd x =? i) && (fst x <=? t)) l = false end.
Proof.
  induction l as [|[d j] l IH]; cbn [take_due existsb fst snd]; [reflexivity|].
  destruct ((j =? i) && (d <=? t)); [reflexivity|]. cbn [orb]. destruct (take_due i t l); exact IH.
Qed.

Lemma standing_step c i s e L D : plain e -> standing c i s L D ->
  standing c i (step c s e) (L ++ voters c i (s, e)) (D \/ drops c i (s, e)).
Proof.
  intros Hp H. destruct e as [m frm|is ch|j t|j|j t ch|v t|f t]; cbn [step voters drops fst snd] in *; try contradiction.
  - apply standing_weaken with D; [tauto|]. apply standing_process. exact H.
  - unfold found. destruct (on_degraded c) eqn:Ed.
    + apply standing_weaken with D; [split; [intros [X|[X _]]; [exact X|discriminate]|tauto]|].
      apply standing_send; [|exact H]. unfold by_quorum. cbn. rewrite Ed. reflexivity.
    + rewrite app_nil_r. apply standing_drop with D; [|exact H]. tauto.
    + rewrite app_nil_r. apply standing_weaken with D; [split; [intros [X|[X _]]; [exact X|discriminate]|tauto]|]. exact H.
  - apply standing_weaken with D; [tauto|]. rewrite app_nil_r. destruct (has j (reps s)) eqn:Ej; [|exact H].
    apply (standing_same c i s); [|exact H]. unfold schedule, set_lost, has in *.
    destruct (get j (reps s)) as [r|] eqn:Er.
    + destruct ((j =? 0) || _); repeat split; try reflexivity; cbn [reps]; symmetry; apply keys_set_old; apply mem_in; exact Ej.
    + destruct ((j =? 0) || _); repeat split; reflexivity.
  - apply standing_weaken with D; [tauto|]. rewrite app_nil_r.
    apply (standing_same c i s); [|exact H]. unfold same. rewrite keys_set_lost. unfold set_lost.
    destruct (get j (reps s)); repeat split; reflexivity.
  - pose proof (take_due_spec j t (sched s)) as T. fold (due j t s) in T. destruct (take_due j t (sched s)) as [l|]; rewrite T.
    2:{ destruct (on_disconnected c); cbn [andb]; rewrite app_nil_r; (apply standing_weaken with D; [split; [intros [X|(_ & X & _)]; [exact X|discriminate]|tauto]|exact H]). }
    set (s1 := Node (reps s) (votes s) (view s) (flt s) l (sent s) (next s)).
    assert (same s s1) as Hs by (repeat split; reflexivity).
    assert (is_lost c j t s1 = is_lost c j t s) as Hl by reflexivity.
    unfold if_lost. rewrite Hl. destruct (is_lost c j t s) eqn:El.
    2:{ destruct (on_disconnected c); cbn [andb]; rewrite app_nil_r; (apply standing_weaken with D; [split; [intros [X|(_ & _ & X & _)]; [exact X|discriminate]|tauto]|apply (standing_same c i s s1 _ _ Hs H)]). }
    apply (standing_same c i s s1 _ _ Hs) in H. clearbody s1. unfold found. cbn [andb]. destruct (on_disconnected c) eqn:Ed.
    + apply standing_weaken with D; [split; [intros [X|[X _]]; [exact X|discriminate]|tauto]|].
      pose proof (standing_send c ch [j] DISCONNECTED i s1 L D) as X. assert (by_quorum c DISCONNECTED = true) as Q.
      { unfold by_quorum. cbn. rewrite Ed. reflexivity. }
      specialize (X Q H). rewrite !count_one in X. destruct (Nat.eqb_spec j i) as [->|N].
      * rewrite Nat.eqb_refl in X. destruct (Nat.eqb_spec 0 i) as [<-|N]; cbn in X |- *; [exact X|].
        destruct (Nat.eqb_spec i 0); [congruence|]. exact X.
      * destruct (Nat.eqb_spec i j); [congruence|]. cbn [andb]. destruct (_ =? 0); exact X.
    + rewrite app_nil_r. apply (standing_drop c i [j] s1 L D); [|exact H]. cbn [In]. tauto.
    + rewrite app_nil_r. apply standing_weaken with D; [split; [intros [X|[X _]]; [exact X|discriminate]|tauto]|exact H].
Qed.

Lemma trace_snoc c s es e : trace c s (es ++ [e]) = trace c s es ++ [(run c s es, e)].
Proof.
  revert s. induction es as [|a es IH]; intros s; [reflexivity|]. cbn [app trace]. rewrite IH. reflexivity.
Qed.
Lemma run_snoc c s es e : run c s (es ++ [e]) = step c (run c s es) e.
Proof. unfold run. rewrite fold_left_app. reflexivity. Qed.
Lemma all_voters_snoc c i s es e : all_voters c i s (es ++ [e]) = all_voters c i s es ++ voters c i (run c s es, e).
Proof. unfold all_voters. rewrite trace_snoc, flat_map_app. cbn [flat_map]. rewrite app_nil_r. reflexivity. Qed.

Lemma standing_run c i s es : votes s = [] -> In i (running s) -> Forall plain es ->
  standing c i (run c s es) (all_voters c i s es) (Exists (drops c i) (trace c s es)).
Proof.
  intros Hv Hi. induction es as [|e es IH] using rev_ind; intros Hp.
  - unfold run, all_voters. cbn [fold_left trace flat_map]. split.
    + intros _. rewrite Hv. split; [exact counts_nil|]. split; [intros [X|X]; cbn in X; lia|]. intros X. inversion X.
    + intros X. apply has_false in X. contradiction.
  - apply Forall_app in Hp. destruct Hp as [Hp He]. inversion He; subst.
    rewrite run_snoc, all_voters_snoc, trace_snoc.
    apply standing_weaken with (Exists (drops c i) (trace c s es) \/ drops c i (run c s es, e)).
    + rewrite Exists_app. split; (intros [X|X]; [left; exact X|right]); [inversion X as [? ? Y|? ? Y]; [exact Y|inversion Y]|constructor; exact X].
    + apply standing_step; [assumption|]. apply IH. exact Hp.
Qed.

Lemma plain_flt_step c s e : plain e -> flt (step c s e) = flt s.
Proof.
  assert (forall l frm s, flt (fold_left (vote c frm) l s) = flt s) as V.
  { induction l as [|a l IH]; intros frm x; cbn [fold_left]; [reflexivity|]. rewrite IH. apply vote_flt. }
  assert (forall m frm s, flt (process c m frm s) = flt s) as P.
  { intros m frm x. unfold process. destruct (refused c x m); [reflexivity|]. apply V. }
  assert (forall how ch is why s, flt (found c how ch is why s) = flt s) as Fo.
  { intros how ch is why x. destruct how; cbn [found]; [|apply drop_all|reflexivity].
    unfold send. destruct (negb ch && _); [reflexivity|]. cbn [flt]. apply P. }
  intros Hp. destruct e as [m frm|is ch|j t|j|j t ch|v t|f t]; cbn [step]; try contradiction.
  - apply P.
  - apply Fo.
  - destruct (has j (reps s)); [|reflexivity]. unfold schedule, set_lost. destruct ((j =? 0) || _), (get j (reps s)); reflexivity.
  - unfold set_lost. destruct (get j (reps s)); reflexivity.
  - destruct (take_due j t (sched s)); [|reflexivity]. unfold if_lost. destruct (is_lost c j t _); [|reflexivity]. rewrite Fo. reflexivity.
Qed.
Lemma plain_flt c s es : Forall plain es -> flt (run c s es) = flt s.
Proof.
  revert s. induction es as [|e es IH]; intros s Hp; [reflexivity|]. inversion Hp; subst.
  change (run c s (e :: es)) with (run c (step c s e) es). rewrite IH by assumption. apply plain_flt_step. assumption.
Qed.

Lemma quorum_iff c i s es : votes s = [] -> In i (running s) -> Forall plain es ->
  (In i (running (run c s es)) <->
   ~ enough c (flt s) (all_voters c i s es) /\ ~ Exists (drops c i) (trace c s es)).
Proof.
  intros Hv Hi Hp. destruct (standing_run c i s es Hv Hi Hp) as [A B]. rewrite (plain_flt c s es Hp) in A, B.
  unfold running. fold (keys (reps (run c s es))). rewrite <- has_in. destruct (has i (reps (run c s es))).
  - split; [|reflexivity]. intros _. destruct (A eq_refl) as (_ & X & Y). split; assumption.
  - split; [discriminate|]. intros [X Y]. destruct (B eq_refl); contradiction.
Qed.

(** ** Removal only by enough votes, whatever happened to the pool *)
Definition at_most (d : dict nat) (L : list nat) : Prop :=
  NoDup (keys d) /\ (forall x, get_or x 0 d <= count x L) /\ (forall x, In x (keys d) -> In x L).
Definition bounded (i : nat) (s : node) (L : list nat) : Prop := at_most (get_or i [] (votes s)) L.

Lemma at_most_app d L L' : at_most d L -> at_most d (L ++ L').
Proof.
  intros (A & B & C). split; [exact A|]. split; [intros x; rewrite count_app; specialize (B x); lia|].
  intros x H. apply in_app_iff. left. apply C. exact H.
Qed.
Lemma at_most_nil L : at_most [] L.
Proof. split; [constructor|]. split; [intros x; cbn; lia|]. intros x []. Qed.
Lemma at_most_add d L frm : at_most d L -> at_most (set frm (S (get_or frm 0 d)) d) (L ++ [frm]).
Proof.
  intros (A & B & C). split; [apply nodup_set; exact A|]. split.
  - intros x. unfold get_or. rewrite get_set, count_app, count_one. specialize (B x). unfold get_or in B. destruct (x =? frm) eqn:E.
    + apply Nat.eqb_eq in E. subst. lia.
    + lia.
  - intros x H. apply in_app_iff. unfold keys in H. apply set_keys in H. destruct H as [->|H]; [right; left; reflexivity|left; apply C; exact H].
Qed.
Lemma at_most_enough c s d L : at_most d L ->
  reached s (length d) || (has (me c) d && reached s (get_or (me c) 0 d)) = true -> enough c (flt s) L.
Proof.
  intros (N & B & K) H. apply orb_true_iff in H. destruct H as [H|H].
  - left. unfold reached in H. apply Nat.leb_le in H. apply Nat.lt_le_trans with (length d); [lia|].
    rewrite <- (map_length fst). apply NoDup_incl_length; [exact N|]. intros x X. apply nodup_In. apply K. exact X.
  - right. apply andb_true_iff in H. destruct H as [_ H]. unfold reached in H. apply Nat.leb_le in H. specialize (B (me c)). lia.
Qed.

Lemma bounded_vote c frm i s j L : bounded i s L ->
  bounded i (vote c frm s j) (L ++ (if i =? j then [frm] else [])) /\
  (has i (reps s) = true -> has i (reps (vote c frm s j)) = false -> i = j /\ enough c (flt s) (L ++ [frm])).
Proof.
  intros H. unfold vote. destruct (has j (reps s)) eqn:Ej.
  2:{ split; [|congruence]. unfold bounded. apply at_most_app. exact H. }
  cbv zeta. set (d' := set frm _ _). set (s1 := with_votes s (set j d' (votes s))).
  assert (bounded i s1 (L ++ (if i =? j then [frm] else [])) /\ (i = j -> at_most d' (L ++ [frm]))) as [B1 B2].
  { unfold bounded, s1, with_votes. cbn [votes]. unfold get_or at 1. rewrite get_set. destruct (i =? j) eqn:Eij.
    - apply Nat.eqb_eq in Eij. subst j. split; [|intros _]; apply at_most_add; exact H.
    - split; [rewrite app_nil_r; exact H|]. intros X. apply Nat.eqb_neq in Eij. contradiction. }
  destruct (reached s1 (length d') || _) eqn:E.
  - split.
    + unfold bounded, with_votes. cbn [votes]. destruct (remove_flt j s1) as (_ & _ & F). rewrite F. unfold get_or. rewrite get_del.
      destruct (i =? j) eqn:Eij; [apply at_most_nil|]. exact B1.
    + intros X Y. unfold with_votes in Y. cbn [reps] in Y. rewrite remove_has in Y. change (reps s1) with (reps s) in Y. rewrite X, andb_true_r in Y.
      apply negb_false_iff, Nat.eqb_eq in Y. split; [exact Y|]. change (flt s) with (flt s1). apply (at_most_enough c s1 d'); [apply B2; exact Y|exact E].
  - split; [exact B1|]. intros X Y. change (reps s1) with (reps s) in Y. congruence.
Qed.

Lemma bounded_votes c frm i l s L : bounded i s L ->
  bounded i (fold_left (vote c frm) l s) (L ++ repeat frm (count i l)) /\
  (has i (reps s) = true -> has i (reps (fold_left (vote c frm) l s)) = false -> enough c (flt s) (L ++ repeat frm (count i l))).
Proof.
  revert s L. induction l as [|j l IH]; intros s L H; cbn [fold_left].
  - cbn. rewrite app_nil_r. split; [exact H|congruence].
  - destruct (bounded_vote c frm i s j L H) as [B1 B2]. destruct (IH _ _ B1) as [I1 I2].
    assert (L ++ repeat frm (count i (j :: l)) = (L ++ (if i =? j then [frm] else [])) ++ repeat frm (count i l)) as Eq.
    { unfold count at 1. cbn [filter]. destruct (i =? j); cbn [length repeat]; [rewrite <- app_assoc; reflexivity|rewrite app_nil_r; reflexivity]. }
    rewrite Eq. split; [exact I1|]. intros X Y. destruct (has i (reps (vote c frm s j))) eqn:E.
    + destruct (vote_flt c frm s j) as [F _]. rewrite <- F. apply I2; [reflexivity|assumption].
    + destruct (B2 X eq_refl) as [-> Z]. rewrite Nat.eqb_refl. apply enough_app. exact Z.
Qed.
Lemma bounded_process c m frm i s L : bounded i s L ->
  let V := if (v_no m =? view s) && (count 0 (insts m) =? 0) && by_quorum c (reason m) then repeat frm (count i (insts m)) else [] in
  bounded i (process c m frm s) (L ++ V) /\
  (has i (reps s) = true -> has i (reps (process c m frm s)) = false -> enough c (flt s) (L ++ V)).
Proof.
  intros H V. unfold process. rewrite refused_spec. unfold V. destruct (_ && by_quorum c (reason m)); cbn [negb].
  - apply bounded_votes. exact H.
  - rewrite app_nil_r. split; [exact H|congruence].
Qed.

Definition no_restore (e : event) : Prop := match e with ERestore _ _ => False | _ => True end.

Lemma fold_add_votes t l s : votes (fold_left (fun s i => add_replica t i s) l s) = votes s /\ flt (fold_left (fun s i => add_replica t i s) l s) = flt s /\ view (fold_left (fun s i => add_replica t i s) l s) = view s.
Proof. revert s. induction l as [|a l IH]; intros s; cbn [fold_left]; [repeat split; reflexivity|]. destruct (IH (add_replica t a s)) as (A & B & C). rewrite A, B, C. repeat split; reflexivity. Qed.

Lemma bounded_send c ch is why i s L : by_quorum c why = true -> bounded i s L ->
  bounded i (send c ch is why s) (L ++ (if count 0 is =? 0 then repeat (me c) (count i is) else [])) /\
  (has i (reps s) = true -> has i (reps (send c ch is why s)) = false ->
   enough c (flt s) (L ++ (if count 0 is =? 0 then repeat (me c) (count i is) else []))).
Proof.
  intros Hq H. destruct (send_same c ch is why s) as (s' & [->|[-> ->]] & (A & B & _)).
  - pose proof (bounded_process c (Msg (view s) is why) (me c) i s L H) as [X Y].
    cbn [v_no insts reason] in X, Y. rewrite Nat.eqb_refl, Hq, andb_true_r in X, Y. cbn [andb] in X, Y.
    unfold bounded, has. rewrite <- A, <- B. split; [exact X|exact Y].
  - unfold bounded, has. rewrite <- A, <- B. cbn. rewrite app_nil_r. split; [exact H|congruence].
Qed.

(** in every event: the votes are bounded, and an instance goes by enough votes, by the node's own finding,
    or because the pool got smaller *)
Lemma bounded_step c i s e L : no_restore e -> bounded i s L ->
  bounded i (step c s e) (L ++ voters c i (s, e)) /\
  (plain e -> has i (reps s) = true -> has i (reps (step c s e)) = false ->
   enough c (flt s) (L ++ voters c i (s, e)) \/ drops c i (s, e)).
Proof.
  intros Hp H. destruct e as [m frm|is ch|j t|j|j t ch|v t|f t]; cbn [step voters drops fst snd] in *; try contradiction.
  - pose proof (bounded_process c m frm i s L H) as [X Y]. split; [exact X|]. intros _ P Q. left. apply Y; assumption.
  - unfold found. destruct (on_degraded c) eqn:Ed.
    + assert (by_quorum c DEGRADED = true) as Q by (unfold by_quorum; cbn; rewrite Ed; reflexivity).
      destruct (bounded_send c ch is DEGRADED i s L Q H) as [X Y]. split; [exact X|]. intros _ P R. left. apply Y; assumption.
    + rewrite app_nil_r. destruct (drop_all is s) as (A & B & _ & E). unfold bounded. rewrite B, E. split; [exact H|].
      intros _ P Q. rewrite P, andb_true_r in Q. apply negb_false_iff, mem_in in Q. right. split; [reflexivity|exact Q].
    + rewrite app_nil_r. split; [exact H|]. intros _ P Q. congruence.
  - rewrite app_nil_r. assert (same s (if has j (reps s) then schedule c j t (set_lost j (Some t) s) else s)) as (A & B & _).
    { destruct (has j (reps s)) eqn:Ej; [|repeat split; reflexivity]. unfold schedule, set_lost, has in *.
      destruct (get j (reps s)) as [r|] eqn:Er.
      + destruct ((j =? 0) || _); repeat split; try reflexivity; cbn [reps]; symmetry; apply keys_set_old; apply mem_in; exact Ej.
      + destruct ((j =? 0) || _); repeat split; reflexivity. }
    unfold bounded, has in *. rewrite <- A, <- B. split; [exact H|]. intros _ P Q. congruence.
  - rewrite app_nil_r. rewrite has_set_lost. split; [|intros _ P Q; congruence].
    unfold bounded, set_lost. destruct (get j (reps s)); exact H.
  - pose proof (take_due_spec j t (sched s)) as T. fold (due j t s) in T. destruct (take_due j t (sched s)) as [l|]; rewrite T.
    2:{ assert (match on_disconnected c with Quorum => if false && is_lost c j t s && (j =? i) && negb (i =? 0) then [me c] else [] | _ => [] end = []) as X
          by (destruct (on_disconnected c); reflexivity). rewrite X, app_nil_r. split; [exact H|]. intros _ P Q. congruence. }
    set (s1 := Node (reps s) (votes s) (view s) (flt s) l (sent s) (next s)).
    assert (is_lost c j t s1 = is_lost c j t s) as Hl by reflexivity.
    assert (has i (reps s) = has i (reps s1)) as Hh by reflexivity. assert (flt s = flt s1) as Hf by reflexivity.
    assert (bounded i s1 L) as H1 by exact H.
    unfold if_lost. rewrite Hl. destruct (is_lost c j t s) eqn:El.
    2:{ assert (match on_disconnected c with Quorum => if true && false && (j =? i) && negb (i =? 0) then [me c] else [] | _ => [] end = []) as X
          by (destruct (on_disconnected c); reflexivity). rewrite X, app_nil_r. split; [exact H1|]. intros _ P Q. rewrite Hh in P. congruence. }
    rewrite Hh, Hf. clear Hh Hf. clearbody s1. unfold found. cbn [andb]. destruct (on_disconnected c) eqn:Ed.
    + assert (by_quorum c DISCONNECTED = true) as Q by (unfold by_quorum; cbn; rewrite Ed; reflexivity).
      destruct (bounded_send c ch [j] DISCONNECTED i s1 L Q H1) as [X Y]. rewrite !count_one in X, Y.
      assert ((if (if 0 =? j then 1 else 0) =? 0 then repeat (me c) (if i =? j then 1 else 0) else []) =
              (if (j =? i) && negb (i =? 0) then [me c] else [])) as Eq.
      { destruct (Nat.eqb_spec j i) as [->|N].
        - rewrite Nat.eqb_refl. destruct (Nat.eqb_spec 0 i) as [<-|N]; [reflexivity|]. destruct (Nat.eqb_spec i 0); [congruence|reflexivity].
        - destruct (Nat.eqb_spec i j); [congruence|]. destruct (0 =? j); reflexivity. }
      rewrite Eq in X, Y. split; [exact X|]. intros _ P R. left. apply Y; assumption.
    + rewrite app_nil_r. destruct (drop_all [j] s1) as (A & B & _ & E). cbn [fold_left] in A, B, E |- *. unfold bounded. rewrite B, E. split; [exact H1|].
      intros _ P R. right. rewrite P, andb_true_r in R. apply negb_false_iff, mem_in in R. destruct R as [R|[]]. repeat split; exact R.
    + rewrite app_nil_r. split; [exact H1|]. intros _ P R. congruence.
  - rewrite app_nil_r. split; [|contradiction]. unfold adjust. cbv zeta. unfold bounded.
    match goal with |- context [fold_left (fun s i => remove_replica i s) ?l ?x] => destruct (drop_all l x) as (_ & B & _); rewrite B end.
    match goal with |- context [fold_left (fun s i => add_replica t i s) ?l ?x] => destruct (fold_add_votes t l x) as (B' & _); rewrite B' end.
    exact H.
Qed.

Lemma bounded_run c i s es : votes s = [] -> Forall no_restore es -> bounded i (run c s es) (all_voters c i s es).
Proof.
  intros Hv. induction es as [|e es IH] using rev_ind; intros Hp.
  - unfold run, bounded. cbn [fold_left]. rewrite Hv. apply at_most_nil.
  - apply Forall_app in Hp. destruct Hp as [Hp He]. inversion He; subst. rewrite run_snoc, all_voters_snoc.
    apply bounded_step; [assumption|]. apply IH. exact Hp.
Qed.

Lemma removed_sound c i s es e : votes s = [] -> Forall no_restore es -> plain e ->
  In i (running (run c s es)) -> ~ In i (running (run c s (es ++ [e]))) ->
  enough c (flt (run c s es)) (all_voters c i s (es ++ [e])) \/ drops c i (run c s es, e).
Proof.
  intros Hv Hp He Hi Ho. rewrite all_voters_snoc.
  assert (no_restore e) as Hn by (destruct e; try exact Logic.I; contradiction).
  destruct (bounded_step c i (run c s es) e _ Hn (bounded_run c i s es Hv Hp)) as [_ X]. apply X.
  - exact He.
  - apply has_in. exact Hi.
  - apply has_false. rewrite <- run_snoc. exact Ho.
Qed.

(** a few nodes cannot *)
Lemma few_not_enough c f B L : length B <= f -> incl L B -> ~ In (me c) L -> ~ enough c f L.
Proof.
  intros HB HL Hm [X|X].
  - assert (length (nodup Nat.eq_dec L) <= length B) as Y; [|lia]. apply NoDup_incl_length; [apply NoDup_nodup|].
    intros x H. apply nodup_In in H. apply HL. exact H.
  - assert (0 < count (me c) L) as Y by lia. apply count_pos in Y. contradiction.
Qed.

(** ** The master stays *)
Lemma votes_keep c frm i l s : ~ In i l -> has i (reps (fold_left (vote c frm) l s)) = has i (reps s).
Proof.
  revert s. induction l as [|j l IH]; intros s N; cbn [fold_left]; [reflexivity|].
  rewrite IH by (intros X; apply N; right; exact X).
  assert (i <> j) as Nj by (intros ->; apply N; left; reflexivity).
  unfold vote. destruct (has j (reps s)); [|reflexivity]. cbv zeta.
  match goal with |- context [if ?b then _ else _] => destruct b end; [|reflexivity].
  unfold with_votes. cbn [reps]. rewrite remove_has. destruct (Nat.eqb_spec i j); [contradiction|reflexivity].
Qed.
Lemma process_keep0 c m frm s : has 0 (reps (process c m frm s)) = has 0 (reps s).
Proof.
  unfold process. destruct (refused c s m) eqn:E; [reflexivity|]. apply votes_keep.
  unfold refused in E. apply orb_false_iff in E. destruct E as [E _]. apply orb_false_iff in E. destruct E as [E _].
  apply orb_false_iff in E. destruct E as [_ E]. intros X. apply mem_in in X. congruence.
Qed.
Lemma found_keep0 c how ch is why s : ~ In 0 is -> has 0 (reps (found c how ch is why s)) = has 0 (reps s).
Proof.
  intros N. destruct how; cbn [found]; [|destruct (drop_all is s) as (_ & _ & _ & E); rewrite E|reflexivity].
  - unfold send. destruct (negb ch && _); [reflexivity|]. cbn [reps]. apply process_keep0.
  - destruct (existsb (Nat.eqb 0) is) eqn:X; [apply mem_in in X; contradiction|reflexivity].
Qed.
Lemma fold_add_has t l s j : has j (reps (fold_left (fun s i => add_replica t i s) l s)) = existsb (Nat.eqb j) l || has j (reps s).
Proof.
  revert s. induction l as [|a l IH]; intros s; cbn [fold_left existsb]; [reflexivity|]. rewrite IH. unfold add_replica. cbn [reps]. rewrite has_put.
  destruct (j =? a), (existsb (Nat.eqb j) l); reflexivity.
Qed.

Lemma vote_sched c frm s i : sched (vote c frm s i) = sched s /\ sent (vote c frm s i) = sent s /\ next (vote c frm s i) = next s.
Proof.
  assert (forall i s, sched (remove_replica i s) = sched s /\ sent (remove_replica i s) = sent s /\ next (remove_replica i s) = next s) as R.
  { intros j x. unfold remove_replica. destruct (has j (reps x)); repeat split; reflexivity. }
  unfold vote. destruct (has i (reps s)); [|repeat split; reflexivity]. cbv zeta.
  match goal with |- context [if ?b then _ else _] => destruct b end; [|repeat split; reflexivity].
  unfold with_votes at 1 3 5. cbn [sched sent next].
  match goal with |- context [remove_replica i ?x] => set (s1 := x); destruct (R i s1) as (A & B & C) end.
  repeat split; [exact A|exact B|exact C].
Qed.
Lemma votes_sched c frm l s : sched (fold_left (vote c frm) l s) = sched s /\ sent (fold_left (vote c frm) l s) = sent s.
Proof.
  revert s. induction l as [|a l IH]; intros s; cbn [fold_left]; [split; reflexivity|].
  destruct (IH (vote c frm s a)) as [A B]. destruct (vote_sched c frm s a) as (C & D & _). split; congruence.
Qed.
Lemma process_sched c m frm s : sched (process c m frm s) = sched s /\ sent (process c m frm s) = sent s.
Proof. unfold process. destruct (refused c s m); [split; reflexivity|]. apply votes_sched. Qed.
Lemma drop_sched is s : sched (fold_left (fun s i => remove_replica i s) is s) = sched s /\ sent (fold_left (fun s i => remove_replica i s) is s) = sent s.
Proof.
  revert s. induction is as [|a l IH]; intros s; cbn [fold_left]; [split; reflexivity|].
  destruct (IH (remove_replica a s)) as [A B]. rewrite A, B. unfold remove_replica. destruct (has a (reps s)); split; reflexivity.
Qed.
Lemma found_sched c how ch is why s : sched (found c how ch is why s) = sched s.
Proof.
  destruct how; cbn [found]; [|apply drop_sched|reflexivity]. unfold send. destruct (negb ch && _); [reflexivity|]. cbn [sched]. apply process_sched.
Qed.
Lemma fold_add_sched t l s : sched (fold_left (fun s i => add_replica t i s) l s) = sched s /\ sent (fold_left (fun s i => add_replica t i s) l s) = sent s.
Proof. revert s. induction l as [|a l IH]; intros s; cbn [fold_left]; [split; reflexivity|]. destruct (IH (add_replica t a s)) as [A B]. rewrite A, B. split; reflexivity. Qed.
Lemma fold_restore_sched t l s :
  let r := fold_left (fun s i => if has i (reps s) then s else add_replica t i s) l s in
  sched r = sched s /\ sent r = sent s /\ votes r = votes s /\ flt r = flt s /\
  (forall j x, get j (reps s) = Some x -> get j (reps r) = Some x) /\
  (forall j, get j (reps s) = None -> ~ In j l -> get j (reps r) = None).
Proof.
  revert s. induction l as [|a l IH]; intros s; cbn [fold_left].
  - repeat split; try reflexivity; intros; assumption.
  - cbv zeta in IH |- *. set (s1 := if has a (reps s) then s else add_replica t a s). destruct (IH s1) as (A & B & C & D & E & F).
    rewrite A, B, C, D. assert (sched s1 = sched s /\ sent s1 = sent s /\ votes s1 = votes s /\ flt s1 = flt s) as (P & Q & R & T)
      by (unfold s1; destruct (has a (reps s)); repeat split; reflexivity).
    repeat split; try assumption.
    + intros j x H. apply E. unfold s1. destruct (has a (reps s)) eqn:Ha; [exact H|]. unfold add_replica. cbn [reps]. rewrite get_put.
      destruct (Nat.eqb_spec j a) as [->|N]; [|exact H]. rewrite get_has, H in Ha. discriminate.
    + intros j H N. apply F; [|intros X; apply N; right; exact X]. unfold s1. destruct (has a (reps s)) eqn:Ha; [exact H|].
      unfold add_replica. cbn [reps]. rewrite get_put. destruct (Nat.eqb_spec j a) as [->|N']; [|exact H]. exfalso. apply N. left. reflexivity.
Qed.
Lemma fold_restore_new t l s j : In j l ->
  exists x, get j (reps (fold_left (fun s i => if has i (reps s) then s else add_replica t i s) l s)) = Some x /\
    (get j (reps s) = None -> lost_at x = Some t /\ next s <= serial x).
Proof.
  revert s. induction l as [|a l IH]; intros s H; cbn [fold_left]; [contradiction|].
  set (s1 := if has a (reps s) then s else add_replica t a s).
  destruct (fold_restore_sched t l s1) as (_ & _ & _ & _ & E & _). cbv zeta in E.
  destruct (get j (reps s1)) as [x|] eqn:E1.
  - exists x. split; [apply E; exact E1|]. intros E0. unfold s1 in E1. destruct (has a (reps s)) eqn:Ha; [congruence|].
    unfold add_replica in E1. cbn [reps] in E1. rewrite get_put in E1. destruct (j =? a) eqn:Ej; [|congruence].
    injection E1 as <-. cbn. split; [reflexivity|lia].
  - destruct H as [->|H].
    + exfalso. unfold s1 in E1. destruct (has j (reps s)) eqn:Ha.
      * rewrite get_has, E1 in Ha. discriminate.
      * unfold add_replica in E1. cbn [reps] in E1. rewrite get_put, Nat.eqb_refl in E1. discriminate.
    + destruct (IH s1 H) as (x & A & B). exists x. split; [exact A|]. intros E0. destruct (B E1) as [B1 B2]. split; [exact B1|].
      unfold s1 in B2. destruct (has a (reps s)); [exact B2|]. cbn in B2. lia.
Qed.

Definition good (s : node) : Prop := has 0 (reps s) = true /\ forall d i, In (d, i) (sched s) -> i <> 0.
Lemma take_due_in i t l l' : take_due i t l = Some l' -> (exists d, In (d, i) l /\ d <= t) /\ incl l' l.
Proof.
  revert l'. induction l as [|[d j] l IH]; cbn [take_due]; intros l' H; [discriminate|].
  destruct ((j =? i) && (d <=? t)) eqn:E.
  - injection H as <-. apply andb_true_iff in E. destruct E as [E1 E2]. apply Nat.eqb_eq in E1. apply Nat.leb_le in E2. subst.
    split; [exists d; split; [left; reflexivity|exact E2]|]. intros x X. right. exact X.
  - destruct (take_due i t l) as [r|]; [|discriminate]. injection H as <-. destruct (IH r eq_refl) as [(d0 & A & B) C].
    split; [exists d0; split; [right; exact A|exact B]|]. intros x [X|X]; [left; exact X|right; apply C; exact X].
Qed.

Lemma good_step c s e : sane e -> good s -> good (step c s e).
Proof.
  intros Hs [G1 G2]. destruct e as [m frm|is ch|j t|j|j t ch|v t|f t]; cbn [step sane] in *.
  - split; [rewrite process_keep0; exact G1|]. destruct (process_sched c m frm s) as [A _]. rewrite A. exact G2.
  - split; [rewrite found_keep0; assumption|]. rewrite found_sched. exact G2.
  - destruct (has j (reps s)); [|split; assumption]. split.
    + unfold schedule. destruct ((j =? 0) || _); cbn [reps]; rewrite has_set_lost; exact G1.
    + unfold schedule. assert (sched (set_lost j (Some t) s) = sched s) as X by (unfold set_lost; destruct (get j (reps s)); reflexivity).
      destruct (Nat.eqb_spec j 0) as [E|N]; cbn [orb].
      * rewrite X. exact G2.
      * destruct (negb _); [rewrite X; exact G2|]. cbn [sched]. rewrite X. intros d i H. apply in_app_iff in H. destruct H as [H|[H|[]]]; [apply (G2 d i H)|].
        injection H as _ <-. exact N.
  - split; [rewrite has_set_lost; exact G1|]. assert (sched (set_lost j None s) = sched s) as X by (unfold set_lost; destruct (get j (reps s)); reflexivity).
    rewrite X. exact G2.
  - destruct (take_due j t (sched s)) as [l|] eqn:E; [|split; assumption].
    destruct (take_due_in _ _ _ _ E) as [(d & A & _) B]. unfold if_lost.
    destruct (is_lost c j t _).
    + split.
      * rewrite found_keep0; [exact G1|]. intros [X|[]]. apply (G2 d j A). exact X.
      * rewrite found_sched. cbn [sched]. intros d' i H. apply (G2 d' i). apply B. exact H.
    + split; [exact G1|]. cbn [sched]. intros d' i H. apply (G2 d' i). apply B. exact H.
  - unfold restore. destruct (fold_restore_sched t (seq 0 (S (flt s))) (with_votes s [])) as (A & _ & _ & _ & E & _). cbv zeta in A, E. cbv zeta. split; cbn [reps sched].
    + rewrite get_has in G1. destruct (get 0 (reps s)) as [x|] eqn:E0; [|discriminate]. rewrite get_has, (E 0 x E0). reflexivity.
    + rewrite A. exact G2.
  - unfold adjust. cbv zeta. cbn [reps]. split.
    + match goal with |- context [fold_left (fun s i => remove_replica i s) ?l ?x] => destruct (drop_all l x) as (_ & _ & _ & B); rewrite B end.
      rewrite fold_add_has. cbn [reps]. rewrite G1, orb_true_r, andb_true_r. apply negb_true_iff.
      destruct (existsb (Nat.eqb 0) (rev (seq (S f) (length (reps s) - S f)))) eqn:X; [|reflexivity].
      apply mem_in in X. apply in_rev in X. apply in_seq in X. lia.
    + match goal with |- context [fold_left (fun s i => remove_replica i s) ?l ?x] => destruct (drop_sched l x) as (B & _); rewrite B end.
      match goal with |- context [fold_left (fun s i => add_replica t i s) ?l ?x] => destruct (fold_add_sched t l x) as (B' & _); rewrite B' end.
      exact G2.
Qed.
Lemma good_start f t v : good (start f t v).
Proof.
  unfold start, adjust. cbv zeta. cbn [reps length]. rewrite Nat.sub_0_r. cbn [Nat.sub seq rev fold_left]. split.
  - rewrite fold_add_has. apply orb_true_r.
  - match goal with |- context [fold_left (fun s i => add_replica t i s) ?l ?x] => destruct (fold_add_sched t l x) as (B' & _); rewrite B' end.
    intros d i [].
Qed.
Lemma good_run c s es : Forall sane es -> good s -> good (run c s es).
Proof.
  revert s. induction es as [|e es IH]; intros s H G; [exact G|]. inversion H; subst.
  apply (IH (step c s e)); [assumption|]. apply good_step; assumption.
Qed.

(** ** What is sent *)
Lemma send_sent c ch is why s : sent (send c ch is why s) = (match is, ch with [], false => [] | _, _ => [Msg (view s) is why] end) ++ sent s.
Proof.
  unfold send. destruct is as [|a is], ch; cbn [negb andb]; try reflexivity; cbn [sent app]; f_equal; apply process_sched.
Qed.
Lemma step_sent c s e : sent (step c s e) = tells c s e ++ sent s.
Proof.
  destruct e as [m frm|is ch|j t|j|j t ch|v t|f t]; cbn [step tells].
  - apply process_sched.
  - unfold found. destruct (on_degraded c).
    + rewrite send_sent. destruct is, ch; reflexivity.
    + apply drop_sched.
    + reflexivity.
  - destruct (has j (reps s)); [|reflexivity]. unfold schedule, set_lost. destruct ((j =? 0) || _), (get j (reps s)); reflexivity.
  - unfold set_lost. destruct (get j (reps s)); reflexivity.
  - pose proof (take_due_spec j t (sched s)) as T. fold (due j t s) in T. destruct (take_due j t (sched s)) as [l|]; rewrite T.
    2:{ destruct (on_disconnected c); reflexivity. }
    unfold if_lost. set (s1 := Node (reps s) (votes s) (view s) (flt s) l (sent s) (next s)).
    change (is_lost c j t s1) with (is_lost c j t s). change (sent s) with (sent s1). change (view s) with (view s1). cbn [andb].
    destruct (is_lost c j t s); [|destruct (on_disconnected c); reflexivity]. unfold found. destruct (on_disconnected c).
    + apply send_sent.
    + destruct (drop_sched [j] s1) as [_ X]. exact X.
    + reflexivity.
  - unfold restore. destruct (fold_restore_sched t (seq 0 (S (flt s))) (with_votes s [])) as (_ & A & _). exact A.
  - unfold adjust. cbv zeta.
    match goal with |- context [fold_left (fun s i => remove_replica i s) ?l ?x] => destruct (drop_sched l x) as (_ & B); rewrite B end.
    match goal with |- context [fold_left (fun s i => add_replica t i s) ?l ?x] => destruct (fold_add_sched t l x) as (_ & B'); rewrite B' end.
    reflexivity.
Qed.

(** ** The order of the instances *)
Lemma put_sorted {V} k (v : V) d : StronglySorted lt (keys d) -> StronglySorted lt (keys (put k v d)).
Proof.
  unfold keys. induction d as [|[a w] d IH]; cbn [put map fst]; intros H.
  - repeat constructor.
  - inversion H as [|? ? H1 H2]; subst. destruct (Nat.eqb_spec k a) as [->|N]; cbn [map fst]; [constructor; assumption|].
    destruct (Nat.ltb_spec k a) as [L|L]; cbn [map fst].
    + constructor; [exact H|]. constructor; [exact L|]. rewrite Forall_forall in *. intros x X. specialize (H2 x X). lia.
    + constructor; [apply IH; exact H1|]. rewrite Forall_forall in *. intros x X.
      assert (has x (put k v d) = true) as Y by (apply has_in; exact X). rewrite has_put in Y. apply orb_true_iff in Y. destruct Y as [Y|Y].
      * apply Nat.eqb_eq in Y. lia.
      * apply H2. apply has_in in Y. exact Y.
Qed.
Lemma filter_sorted f l : StronglySorted lt l -> StronglySorted lt (filter f l).
Proof.
  induction l as [|a l IH]; cbn [filter]; intros H; [constructor|]. inversion H as [|? ? H1 H2]; subst.
  destruct (f a); [|apply IH; exact H1]. constructor; [apply IH; exact H1|]. rewrite Forall_forall in *.
  intros x X. apply filter_In in X. apply H2. apply X.
Qed.
Lemma seq_sorted a n : StronglySorted lt (seq a n).
Proof.
  revert a. induction n as [|n IH]; intros a; cbn [seq]; constructor; [apply IH|]. apply Forall_forall. intros x X. apply in_seq in X. lia.
Qed.
Lemma sorted_unique l l' : StronglySorted lt l -> StronglySorted lt l' -> (forall x, In x l <-> In x l') -> l = l'.
Proof.
  revert l'. induction l as [|a l IH]; intros l' H H' E.
  - destruct l' as [|b l']; [reflexivity|]. exfalso. apply (proj2 (E b)). left. reflexivity.
  - destruct l' as [|b l']; [exfalso; apply (proj1 (E a)); left; reflexivity|].
    inversion H as [|? ? H1 H2]; subst. inversion H' as [|? ? H1' H2']; subst. rewrite Forall_forall in H2, H2'.
    assert (a = b) as ->.
    { destruct (proj1 (E a) (or_introl eq_refl)) as [X|X]; [symmetry; exact X|].
      destruct (proj2 (E b) (or_introl eq_refl)) as [Y|Y]; [exact Y|]. specialize (H2 b Y). specialize (H2' a X). lia. }
    f_equal. apply IH; [exact H1|exact H1'|]. intros x. split; intros X.
    + destruct (proj1 (E x) (or_intror X)) as [Y|Y]; [|exact Y]. subst x. specialize (H2 b X). lia.
    + destruct (proj2 (E x) (or_intror X)) as [Y|Y]; [|exact Y]. subst x. specialize (H2' b X). lia.
Qed.

Definition sorted (s : node) : Prop := StronglySorted lt (keys (reps s)).
Lemma sorted_remove i s : sorted s -> sorted (remove_replica i s).
Proof. unfold remove_replica, sorted. destruct (has i (reps s)); [|tauto]. cbn [reps]. rewrite keys_del. apply filter_sorted. Qed.
Lemma sorted_drop is s : sorted s -> sorted (fold_left (fun s i => remove_replica i s) is s).
Proof. revert s. induction is as [|a is IH]; intros s H; cbn [fold_left]; [exact H|]. apply IH. apply sorted_remove. exact H. Qed.
Lemma sorted_add t is s : sorted s -> sorted (fold_left (fun s i => add_replica t i s) is s).
Proof. revert s. induction is as [|a is IH]; intros s H; cbn [fold_left]; [exact H|]. apply IH. unfold sorted, add_replica. cbn [reps]. apply put_sorted. exact H. Qed.
Lemma sorted_vote c frm s i : sorted s -> sorted (vote c frm s i).
Proof.
  intros H. unfold vote. destruct (has i (reps s)); [|exact H]. cbv zeta.
  match goal with |- context [if ?b then _ else _] => destruct b end; [|exact H].
  apply (sorted_remove i (with_votes s _)). exact H.
Qed.
Lemma sorted_process c m frm s : sorted s -> sorted (process c m frm s).
Proof.
  intros H. unfold process. destruct (refused c s m); [exact H|]. revert s H. generalize (insts m).
  induction l as [|a l IH]; intros s H; cbn [fold_left]; [exact H|]. apply IH. apply sorted_vote. exact H.
Qed.
Lemma sorted_found c how ch is why s : sorted s -> sorted (found c how ch is why s).
Proof.
  intros H. destruct how; cbn [found]; [|apply sorted_drop; exact H|exact H]. unfold send. destruct (negb ch && _); [exact H|].
  apply (sorted_process c (Msg (view s) is why) (me c) s H).
Qed.
Lemma sorted_step c s e : sorted s -> sorted (step c s e).
Proof.
  intros H. destruct e as [m frm|is ch|j t|j|j t ch|v t|f t]; cbn [step].
  - apply sorted_process. exact H.
  - apply sorted_found. exact H.
  - destruct (has j (reps s)); [|exact H]. unfold sorted, schedule. destruct ((j =? 0) || _); cbn [reps]; rewrite keys_set_lost; exact H.
  - unfold sorted. rewrite keys_set_lost. exact H.
  - destruct (take_due j t (sched s)); [|exact H]. unfold if_lost. destruct (is_lost c j t _); [|exact H]. apply sorted_found. exact H.
  - unfold sorted. cbv zeta. cbn [reps]. unfold restore.
    assert (sorted (with_votes s [])) as H' by exact H. revert H'. generalize (with_votes s []). generalize (seq 0 (S (flt s))).
    induction l as [|a l IH]; intros x H'; cbn [fold_left]; [exact H'|]. apply IH. destruct (has a (reps x)); [exact H'|].
    unfold sorted, add_replica. cbn [reps]. apply put_sorted. exact H'.
  - unfold adjust. cbv zeta. apply sorted_drop. apply sorted_add. exact H.
Qed.
Lemma sorted_run c s es : sorted s -> sorted (run c s es).
Proof. revert s. induction es as [|e es IH]; intros s H; [exact H|]. apply (IH (step c s e)). apply sorted_step. exact H. Qed.
Lemma sorted_start f t v : sorted (start f t v).
Proof. unfold start, adjust. cbv zeta. apply sorted_drop. apply sorted_add. unfold sorted. cbn. constructor. Qed.

(** ** Restoration *)
Lemma restore_spec c s v t : let s' := step c s (ERestore v t) in
  (forall i, In i (running s') <-> In i (running s) \/ i <= flt s) /\
  (forall i r, replica i s = Some r -> replica i s' = Some r) /\
  (forall i r, replica i s = None -> replica i s' = Some r -> lost_at r = Some t) /\
  votes s' = [] /\ view s' = v.
Proof.
  cbv zeta. unfold replica, running. cbn [step]. cbv zeta. cbn [reps votes view]. unfold restore.
  destruct (fold_restore_sched t (seq 0 (S (flt s))) (with_votes s [])) as (_ & _ & A & _ & E & F). cbv zeta in A, E, F.
  set (r := fold_left _ _ _) in *. change (reps (with_votes s [])) with (reps s) in E, F. change (votes (with_votes s [])) with (@nil (nat * dict nat)) in A.
  assert (forall i, i <= flt s -> exists x, get i (reps r) = Some x /\ (get i (reps s) = None -> lost_at x = Some t)) as N.
  { intros i Hi. destruct (fold_restore_new t (seq 0 (S (flt s))) (with_votes s []) i) as (x & X1 & X2); [apply in_seq; lia|].
    exists x. split; [exact X1|]. intros X. apply X2. exact X. }
  split; [|split; [exact E|split; [|split; [exact A|reflexivity]]]].
  - intros i. fold (keys (reps r)). fold (keys (reps s)). rewrite <- !has_in, !get_has. destruct (get i (reps s)) as [x|] eqn:Ei.
    + rewrite (E i x Ei). tauto.
    + destruct (le_lt_dec i (flt s)) as [L|L].
      * destruct (N i L) as (x & X1 & _). rewrite X1. tauto.
      * rewrite (F i Ei) by (intros X; apply in_seq in X; lia). split; [discriminate|]. intros [Y|Y]; [discriminate|lia].
  - intros i x H H'. destruct (le_lt_dec i (flt s)) as [L|L].
    + destruct (N i L) as (y & Y1 & Y2). rewrite Y1 in H'. injection H' as <-. apply Y2. exact H.
    + rewrite (F i H) in H' by (intros X; apply in_seq in X; lia). discriminate.
Qed.
Lemma restore_all c s v t : sorted s -> (forall i, In i (running s) -> i <= flt s) ->
  running (step c s (ERestore v t)) = seq 0 (S (flt s)).
Proof.
  intros Hs Hl. apply sorted_unique.
  - apply (sorted_step c s (ERestore v t) Hs).
  - apply seq_sorted.
  - intros i. destruct (restore_spec c s v t) as (A & _). rewrite A, in_seq. split; [intros [X|X]; [specialize (Hl i X)|]; lia|intros X; right; lia].
Qed.

(** ** The pool changes *)
Lemma put_end {V} k (v : V) d : Forall (fun x => x < k) (keys d) -> put k v d = d ++ [(k, v)].
Proof.
  unfold keys. induction d as [|[a w] d IH]; cbn [put map fst app]; intros H; [reflexivity|]. inversion H; subst.
  destruct (Nat.eqb_spec k a); [lia|]. destruct (Nat.ltb_spec k a); [lia|]. rewrite IH by assumption. reflexivity.
Qed.
Lemma add_seq t n k s : keys (reps s) = seq 0 n ->
  keys (reps (fold_left (fun s i => add_replica t i s) (seq n k) s)) = seq 0 (n + k) /\
  forall i, i < n -> get i (reps (fold_left (fun s i => add_replica t i s) (seq n k) s)) = get i (reps s).
Proof.
  revert n s. induction k as [|k IH]; intros n s H; cbn [seq fold_left].
  - rewrite Nat.add_0_r. split; [exact H|reflexivity].
  - assert (keys (reps (add_replica t n s)) = seq 0 (S n)) as H'.
    { unfold add_replica. cbn [reps]. rewrite put_end.
      - unfold keys. rewrite map_app. fold (keys (reps s)). rewrite H, seq_S. reflexivity.
      - rewrite H. apply Forall_forall. intros x X. apply in_seq in X. lia. }
    destruct (IH (S n) (add_replica t n s) H') as [A B]. rewrite Nat.add_succ_r, <- Nat.add_succ_l. split; [exact A|].
    intros i Hi. rewrite B by lia. unfold add_replica. cbn [reps]. rewrite get_put. destruct (Nat.eqb_spec i n); [lia|reflexivity].
Qed.
Lemma drop_get is s i : ~ In i is -> get i (reps (fold_left (fun s i => remove_replica i s) is s)) = get i (reps s).
Proof.
  revert s. induction is as [|a is IH]; intros s N; cbn [fold_left]; [reflexivity|].
  rewrite IH by (intros X; apply N; right; exact X). unfold remove_replica. destruct (has a (reps s)); [|reflexivity]. cbn [reps].
  rewrite get_del. destruct (Nat.eqb_spec i a) as [->|]; [exfalso; apply N; left; reflexivity|reflexivity].
Qed.
Lemma adjust_spec c s f t n : running s = seq 0 n ->
  running (step c s (EAdjust f t)) = seq 0 (S f) /\
  flt (step c s (EAdjust f t)) = f /\
  forall i, i < n -> i <= f -> replica i (step c s (EAdjust f t)) = replica i s.
Proof.
  intros H. cbn [step]. unfold adjust, running, replica. cbv zeta. cbn [reps].
  assert (length (reps s) = n) as Hl.
  { rewrite <- (map_length fst). unfold running in H. rewrite H. apply seq_length. }
  rewrite Hl. set (s0 := Node (reps s) (votes s) (view s) f (sched s) (sent s) (next s)).
  destruct (add_seq t n (S f - n) s0 H) as [A B].
  set (s1 := fold_left (fun s i => add_replica t i s) (seq n (S f - n)) s0) in *.
  assert (flt s1 = f) as Hf by (destruct (fold_add_votes t (seq n (S f - n)) s0) as (_ & X & _); exact X).
  split; [|split].
  - apply sorted_unique.
    + assert (sorted s1) as X by (unfold sorted; rewrite A; apply seq_sorted). exact (sorted_drop _ _ X).
    + apply seq_sorted.
    + intros i. match goal with |- context [map fst (reps ?x)] => fold (keys (reps x)) end. rewrite <- has_in.
      match goal with |- context [fold_left (fun s i => remove_replica i s) ?l ?x] => destruct (drop_all l x) as (_ & _ & _ & E); rewrite E end.
      rewrite andb_true_iff, has_in, A, negb_true_iff, !in_seq. split.
      * intros [X Y]. split; [lia|]. destruct (Nat.lt_ge_cases i (S f)) as [L|L]; [lia|]. exfalso.
        assert (In i (rev (seq (S f) (n - S f)))) as Z by (apply -> in_rev; apply in_seq; lia). apply mem_in in Z. congruence.
      * intros X. split; [|lia]. destruct (existsb (Nat.eqb i) (rev (seq (S f) (n - S f)))) eqn:Z; [|reflexivity].
        apply mem_in, in_rev, in_seq in Z. lia.
  - match goal with |- context [fold_left (fun s i => remove_replica i s) ?l ?x] => destruct (drop_all l x) as (E & _); rewrite E end. exact Hf.
  - intros i Hi Hf'. rewrite drop_get by (intros X; apply in_rev, in_seq in X; lia). rewrite B by exact Hi. reflexivity.
Qed.

Lemma params_spec c s f t n : running s = seq 0 n -> set_pool_params t f s = Some (step c s (EAdjust f t)).
Proof.
  intros H. destruct (adjust_spec c s f t n H) as (A & _). unfold set_pool_params. cbv zeta. cbn [step] in *.
  unfold running in A. rewrite <- (map_length fst), A, seq_length, Nat.eqb_refl. reflexivity.
Qed.

(** ** Lost primaries *)
Definition stays (i : nat) (s s' : node) : Prop :=
  (get i (reps s') = get i (reps s) \/ get i (reps s') = None) .
Lemma stays_refl i s : stays i s s.
Proof. left. reflexivity. Qed.
Lemma stays_trans i a b d : stays i a b -> stays i b d -> stays i a d.
Proof. unfold stays. intros [X|X] [Y|Y]; rewrite ?X in Y; tauto. Qed.
Lemma stays_remove i j s : stays i s (remove_replica j s).
Proof.
  unfold stays, remove_replica. destruct (has j (reps s)); [|tauto]. cbn [reps]. rewrite get_del. destruct (i =? j); tauto.
Qed.
Lemma stays_drop i l s : stays i s (fold_left (fun s i => remove_replica i s) l s).
Proof.
  revert s. induction l as [|a l IH]; intros s; cbn [fold_left]; [apply stays_refl|].
  apply (stays_trans i s (remove_replica a s)); [apply stays_remove|apply IH].
Qed.
Lemma stays_vote i c frm s j : stays i s (vote c frm s j).
Proof.
  unfold vote. destruct (has j (reps s)); [|apply stays_refl]. cbv zeta.
  match goal with |- context [if ?b then _ else _] => destruct b end; [|left; reflexivity].
  apply (stays_remove i j (with_votes s _)).
Qed.
Lemma stays_process i c m frm s : stays i s (process c m frm s).
Proof.
  unfold process. destruct (refused c s m); [apply stays_refl|]. generalize (insts m). intros l. revert s.
  induction l as [|a l IH]; intros s; cbn [fold_left]; [apply stays_refl|].
  apply (stays_trans i s (vote c frm s a)); [apply stays_vote|apply IH].
Qed.
Lemma stays_found i c how ch is why s : stays i s (found c how ch is why s).
Proof.
  destruct how; cbn [found]; [|apply stays_drop|apply stays_refl]. unfold send. destruct (negb ch && _); [apply stays_refl|].
  apply (stays_process i c (Msg (view s) is why) (me c) s).
Qed.
Lemma get_set_lost_other i j x s : i <> j -> get i (reps (set_lost j x s)) = get i (reps s).
Proof.
  intros N. unfold set_lost. destruct (get j (reps s)); [|reflexivity]. cbn [reps]. rewrite get_set.
  destruct (Nat.eqb_spec i j); [contradiction|reflexivity].
Qed.
Lemma take_due_keep i j t l l' d : i <> j -> take_due j t l = Some l' -> In (d, i) l -> In (d, i) l'.
Proof.
  intros N. revert l'. induction l as [|[a b] l IH]; cbn [take_due]; intros l' H X; [discriminate|]. destruct X as [X|X].
  - injection X as -> ->. destruct (Nat.eqb_spec i j); [contradiction|]. cbn [andb] in H.
    destruct (take_due j t l); [|discriminate]. injection H as <-. left. reflexivity.
  - destruct ((b =? j) && (a <=? t)); [injection H as <-; exact X|].
    destruct (take_due j t l); [|discriminate]. injection H as <-. right. apply IH; [reflexivity|exact X].
Qed.
Lemma stays_step c i s e : plain e -> ~ about i e ->
  stays i s (step c s e) /\ forall d, In (d, i) (sched s) -> In (d, i) (sched (step c s e)).
Proof.
  intros Hp Ha. destruct e as [m frm|is ch|j t|j|j t ch|v t|f t]; cbn [step plain about] in *; try contradiction.
  - split; [apply stays_process|]. intros d H. destruct (process_sched c m frm s) as [A _]. rewrite A. exact H.
  - split; [apply stays_found|]. intros d H. rewrite found_sched. exact H.
  - assert (i <> j) as N by congruence. destruct (has j (reps s)); [|split; [apply stays_refl|tauto]]. split.
    + left. unfold schedule. destruct ((j =? 0) || _); cbn [reps]; apply get_set_lost_other; exact N.
    + intros d H. assert (sched (set_lost j (Some t) s) = sched s) as X by (unfold set_lost; destruct (get j (reps s)); reflexivity).
      unfold schedule. destruct ((j =? 0) || _); cbn [sched]; rewrite X; [exact H|]. apply in_app_iff. left. exact H.
  - assert (i <> j) as N by congruence. split; [left; apply get_set_lost_other; exact N|]. intros d H.
    unfold set_lost. destruct (get j (reps s)); exact H.
  - assert (i <> j) as N by congruence. destruct (take_due j t (sched s)) as [l|] eqn:E; [|split; [apply stays_refl|tauto]].
    set (s1 := Node (reps s) (votes s) (view s) (flt s) l (sent s) (next s)).
    assert (stays i s s1) as H1 by (left; reflexivity). assert (forall d, In (d, i) (sched s) -> In (d, i) (sched s1)) as H2.
    { intros d H. apply (take_due_keep i j t (sched s) l d N E H). }
    clearbody s1. unfold if_lost. destruct (is_lost c j t s1); [|split; assumption]. split.
    + apply (stays_trans i s s1 _ H1). apply stays_found.
    + intros d H. rewrite found_sched. apply H2. exact H.
Qed.
Lemma stays_run c i s es : Forall plain es -> (forall e, In e es -> ~ about i e) ->
  stays i s (run c s es) /\ forall d, In (d, i) (sched s) -> In (d, i) (sched (run c s es)).
Proof.
  revert s. induction es as [|e es IH]; intros s Hp Ha; [split; [apply stays_refl|tauto]|]. inversion Hp; subst.
  change (run c s (e :: es)) with (run c (step c s e) es).
  destruct (stays_step c i s e) as [A B]; [assumption|apply Ha; left; reflexivity|].
  destruct (IH (step c s e)) as [A' B']; [assumption|intros x X; apply Ha; right; exact X|].
  split; [apply (stays_trans i s _ _ A A')|]. intros d H. apply B', B, H.
Qed.

Lemma nth_seq {V} (g : V -> option nat) (d : dict V) a n i : keys d = seq a n ->
  nth_error (map (fun x => g (snd x)) d) i = match get (a + i) d with Some v => Some (g v) | None => None end.
Proof.
  revert a n i. induction d as [|[k v] d IH]; intros a n i H.
  - destruct i; reflexivity.
  - destruct n as [|n]; [discriminate|]. unfold keys in H. cbn [map seq fst] in H. injection H as -> H.
    destruct i as [|i]; cbn [map nth_error get snd].
    + rewrite Nat.add_0_r, Nat.eqb_refl. reflexivity.
    + destruct (Nat.eqb_spec (a + S i) a); [lia|]. rewrite (IH (S a) n i H). rewrite Nat.add_succ_r, Nat.add_succ_l. reflexivity.
Qed.

Lemma fire_spec c s i t ch n r : on_disconnected c = Local -> running s = seq 0 n -> replica i s = Some r ->
  (forall d, lost_at r = Some d -> d <= t) -> due i t s = true ->
  (In i (running (step c s (EFire i t ch))) <-> match lost_at r with Some d => t < d + tolerate c | None => True end).
Proof.
  intros Hc Hk Er Ht Hd. cbn [step]. pose proof (take_due_spec i t (sched s)) as T. fold (due i t s) in T.
  destruct (take_due i t (sched s)) as [l|]; [|congruence].
  unfold if_lost. set (s1 := Node (reps s) (votes s) (view s) (flt s) l (sent s) (next s)).
  change (is_lost c i t s1) with (is_lost c i t s). unfold is_lost. rewrite (nth_seq lost_at (reps s) 0 n i Hk). cbn [Nat.add].
  unfold replica in Er. rewrite Er.
  assert (In i (running s1)) as Hin.
  { change (In i (keys (reps s))). apply has_in. rewrite get_has, Er. reflexivity. }
  destruct (lost_at r) as [d|] eqn:El; [|tauto].
  specialize (Ht d eq_refl). destruct (Nat.leb_spec (tolerate c) (t - d)) as [L|L].
  - rewrite Hc. cbn [found fold_left]. split; [|intros X; lia].
    intros X. exfalso. unfold running in X. fold (keys (reps (remove_replica i s1))) in X. apply has_in in X.
    rewrite remove_has, Nat.eqb_refl in X. discriminate.
  - split; [intros _; lia|intros _; exact Hin].
Qed.

Lemma due_in i t s d : In (d, i) (sched s) -> d <= t -> due i t s = true.
Proof.
  intros H L. unfold due. apply existsb_exists. exists (d, i). split; [exact H|]. cbn [fst snd]. rewrite Nat.eqb_refl. apply Nat.leb_le. exact L.
Qed.

Lemma lost_spec c s es i t t' ch n : on_disconnected c = Local -> i <> 0 -> In i (running s) ->
  Forall plain es -> (forall e, In e es -> ~ about i e) ->
  running (run c s (EDisc i t :: es)) = seq 0 n -> i < n -> t <= t' ->
  (In i (running (run c s (EDisc i t :: es ++ [EFire i t' ch]))) <-> t' < t + tolerate c).
Proof.
  intros Hc Hi Hin Hp Ha Hk Hn Ht. change (EDisc i t :: es ++ [EFire i t' ch]) with ((EDisc i t :: es) ++ [EFire i t' ch]).
  rewrite run_snoc. set (s1 := step c s (EDisc i t)). change (run c s (EDisc i t :: es)) with (run c s1 es) in *.
  unfold running in Hin. fold (keys (reps s)) in Hin. apply has_in in Hin.
  assert (exists r, get i (reps s1) = Some r /\ lost_at r = Some t) as (r & Hr & Hl).
  { unfold s1. cbn [step]. rewrite Hin. pose proof Hin as X. rewrite get_has in X. destruct (get i (reps s)) as [r|] eqn:E; [|discriminate].
    exists (Rep (serial r) (Some t)). split; [|reflexivity]. unfold schedule. destruct ((i =? 0) || _); cbn [reps]; unfold set_lost; rewrite E; cbn [reps]; rewrite get_set, Nat.eqb_refl; reflexivity. }
  assert (In (t + tolerate c, i) (sched s1)) as Hs.
  { unfold s1. cbn [step]. rewrite Hin. unfold schedule. destruct (Nat.eqb_spec i 0); [contradiction|]. rewrite Hc. cbn [is_local orb negb sched].
    apply in_app_iff. right. left. reflexivity. }
  destruct (stays_run c i s1 es Hp Ha) as [A B]. specialize (B _ Hs).
  assert (replica i (run c s1 es) = Some r) as Er.
  { unfold replica. destruct A as [A|A]; [congruence|]. exfalso. apply get_none in A. apply A. unfold running in Hk. rewrite Hk. apply in_seq. lia. }
  destruct (due i t' (run c s1 es)) eqn:Ed.
  - rewrite (fire_spec c _ i t' ch n r Hc Hk Er); [rewrite Hl; tauto|intros d X; congruence|exact Ed].
  - split.
    + intros _. destruct (le_lt_dec (t + tolerate c) t') as [L|L]; [|exact L]. rewrite (due_in i t' _ _ B L) in Ed. discriminate.
    + intros _. cbn [step]. pose proof (take_due_spec i t' (sched (run c s1 es))) as T. fold (due i t' (run c s1 es)) in T.
      destruct (take_due i t' (sched (run c s1 es))); [congruence|]. rewrite Hk. apply in_seq. lia.
Qed.

Lemma back_spec c s es i t' ch n : on_disconnected c = Local -> In i (running s) ->
  Forall plain es -> (forall e, In e es -> ~ about i e) ->
  running (run c s (EConn i :: es)) = seq 0 n -> i < n ->
  In i (running (run c s (EConn i :: es ++ [EFire i t' ch]))).
Proof.
  intros Hc Hin Hp Ha Hk Hn. change (EConn i :: es ++ [EFire i t' ch]) with ((EConn i :: es) ++ [EFire i t' ch]).
  rewrite run_snoc. set (s1 := step c s (EConn i)). change (run c s (EConn i :: es)) with (run c s1 es) in *.
  unfold running in Hin. fold (keys (reps s)) in Hin. apply has_in in Hin.
  assert (exists r, get i (reps s1) = Some r /\ lost_at r = None) as (r & Hr & Hl).
  { unfold s1. cbn [step]. rewrite get_has in Hin. unfold set_lost. destruct (get i (reps s)) as [r|] eqn:E; [|discriminate].
    exists (Rep (serial r) None). split; [|reflexivity]. cbn [reps]. rewrite get_set, Nat.eqb_refl. reflexivity. }
  destruct (stays_run c i s1 es Hp Ha) as [A _].
  assert (replica i (run c s1 es) = Some r) as Er.
  { unfold replica. destruct A as [A|A]; [congruence|]. exfalso. apply get_none in A. apply A. unfold running in Hk. rewrite Hk. apply in_seq. lia. }
  destruct (due i t' (run c s1 es)) eqn:Ed.
  - apply (fire_spec c _ i t' ch n r Hc Hk Er); [intros d X; congruence|exact Ed|]. rewrite Hl. exact Logic.I.
  - cbn [step]. pose proof (take_due_spec i t' (sched (run c s1 es))) as T. fold (due i t' (run c s1 es)) in T.
    destruct (take_due i t' (sched (run c s1 es))); [congruence|]. rewrite Hk. apply in_seq. lia.
Qed.
