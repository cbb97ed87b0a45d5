From Coq Require Import List Arith Bool ZArith Lia.
From Verif Require Import Nym_Model Nym_Spec.
Import ListNotations.

Lemma get_set : forall {V} k k' (v : V) m, get k (set k' v m) = if k' =? k then Some v else get k m.
Proof.
  intros V k k' v m. induction m as [|[a w] m IH]; cbn; [reflexivity|]. destruct (Nat.eqb_spec a k') as [->|NE]; cbn.
  - destruct (k' =? k); reflexivity.
  - rewrite IH. destruct (Nat.eqb_spec a k) as [->|_]; [|reflexivity]. destruct (Nat.eqb_spec k' k) as [E|_]; [congruence|reflexivity].
Qed.
Lemma get_filter : forall {V} k k' (v : V) m, get k (filter (fun y => negb (fst y =? k')) m) = Some v -> get k m = Some v.
Proof.
  intros V k k' v m. induction m as [|[a w] m IH]; cbn; [discriminate|]. destruct (Nat.eqb_spec a k') as [->|NE]; cbn.
  - intros G. destruct (Nat.eqb_spec k' k) as [E|NE]; [|exact (IH G)]. exfalso. subst k'. clear IH. induction m as [|[b u] m IHm]; cbn in G; [discriminate|].
    destruct (Nat.eqb_spec b k) as [->|NE]; cbn in G; [exact (IHm G)|]. destruct (Nat.eqb_spec b k) as [E|_]; [congruence|exact (IHm G)].
  - destruct (a =? k); [auto|exact IH].
Qed.
Lemma role_eqb_eq : forall a b, role_eqb a b = true <-> a = b.
Proof. intros [x|] [y|]; cbn; try (split; [discriminate | discriminate]); [rewrite Nat.eqb_eq; split; [intros ->; reflexivity | intros E; injection E as ->; reflexivity] | tauto]. Qed.
Lemma opt_eqb_eq : forall a b, opt_eqb a b = true <-> a = b.
Proof. exact role_eqb_eq. Qed.
Lemma mem_In : forall d l, mem d l = true <-> In d l.
Proof. intros d l. unfold mem. rewrite existsb_exists. split; [intros (x & X & E); apply Nat.eqb_eq in E; subst; exact X | intros X; exists d; split; [exact X | apply Nat.eqb_refl]]. Qed.
Lemma In_insert : forall x d l, In x (insert d l) <-> x = d \/ In x l.
Proof. intros x d l. induction l as [|e l IH]; cbn; [intuition|]. destruct (d <=? e); cbn; [intuition|]. rewrite IH. intuition. Qed.
Lemma In_sort : forall x l, In x (sort l) <-> In x l.
Proof. intros x l. induction l as [|d l IH]; cbn; [tauto|]. rewrite In_insert, IH. intuition. Qed.

Lemma state_of_snoc : forall l x, state_of (l ++ [x]) = update_state (state_of l) x.
Proof. intros l x. unfold state_of. rewrite fold_left_app. reflexivity. Qed.

Section P.
  Variable long : did -> bool.
  Variable own : did -> nat.
  Variable join : did -> nat -> nat.
  Variable verifies : nat -> nat -> request -> bool.
  Variable digest : list did * option nat * option (list (did * nat)) * option did * op * nat -> nat.
  Variable threshold : Z.
  Notation did_key := (did_key long own join).
  Notation authenticate := (authenticate long own join verifies).
  Notation accept := (accept long own join verifies digest).
  Notation step := (step long own join verifies digest threshold).
  Notation run := (run long own join verifies digest threshold).
  Notation add_role := (add_role long own join).
  Notation add_roles := (add_roles long own join).
  Notation first_key := (first_key long own join).
  Notation keyed := (keyed long own join).
  Notation signed := (signed long own join verifies).
  Notation key_for := (key_for long own join).

  Lemma run_app : forall a b n, run n (a ++ b) = match run n a with Some m => run m b | None => None end.
  Proof. induction a as [|e a IH]; intros b n; cbn; [reflexivity|]. destruct (step n e); [apply IH | reflexivity]. Qed.
  Lemma run_snoc : forall a e n m, run n (a ++ [e]) = Some m -> exists n', run n a = Some n' /\ step n' e = Some m.
  Proof. intros a e n m R. rewrite run_app in R. destruct (run n a) as [n'|]; [|discriminate]. exists n'. split; [reflexivity|]. cbn in R. destruct (step n' e); [exact R|discriminate]. Qed.
  Lemma along_app : forall P a b n m, along long own join verifies digest threshold P n (a ++ b) -> run n a = Some m ->
    along long own join verifies digest threshold P n a /\ along long own join verifies digest threshold P m b.
  Proof.
    intros P. induction a as [|e a IH]; intros b n m A R; cbn in *; [injection R as <-; auto|]. destruct A as [A1 A2].
    destruct (step n e) as [n'|]; [|discriminate]. destruct (IH b n' m A2 R). auto.
  Qed.

  (** ** C62 *)
  Lemma sig_key : forall n q d s, sig_ok long own join verifies n q (d, s) = true -> exists k, key_for n q d k /\ verifies k s (unsigned q) = true.
  Proof.
    intros n q d s S. unfold sig_ok in S. cbn [fst snd] in S. destruct (get_verkey n d q) as [v|] eqn:G; [|discriminate]. destruct (did_key d (Some v)) as [k|] eqn:K; [|discriminate].
    exists k. split; [|exact S]. unfold get_verkey in G. destruct (get d (n_clients n)) as [c|] eqn:C.
    - injection G as <-. cbn in K. injection K as <-. exact (K_client _ _ _ _ _ _ _ C).
    - destruct (get d (head n)) as [r|] eqn:H; [exact (K_state _ _ _ _ _ _ _ r v C H G K)|]. destruct (q_op q) as [o| |] eqn:O; try discriminate. destruct (q_idr q) as [i|] eqn:I; [|discriminate].
      destruct (Nat.eqb_spec i (o_dest o)) as [->|_]; [|discriminate]. destruct (o_key o) as [[w|]|] eqn:W; try discriminate. injection G as ->. exact (K_new _ _ _ _ _ _ _ o v C H O I W K).
  Qed.
  Lemma all_signed : forall n q, validate q = true -> authenticate n q = true -> signed n q /\ author q <> [].
  Proof.
    intros n q V A. unfold Nym_Model.authenticate in A. apply andb_true_iff in A. destruct A as [NE F]. rewrite forallb_forall in F.
    unfold validate in V. rewrite !andb_true_iff in V. destruct V as [[V1 V2] V3].
    assert (ALL : forall d, named q d -> exists s, In (d, s) (signatures q) /\ carries q d s).
    { destruct (sigs_of q) as [|p l] eqn:SG.
      - cbn in V2, V3. destruct (q_endorser q) eqn:EN; [discriminate|]. destruct (q_idr q) as [i|] eqn:I; [|discriminate].
        unfold signatures in *. rewrite I, SG in *. destruct (q_sig q) as [s|] eqn:QS; [|discriminate].
        intros d [X|[X|(s' & X)]]; [|congruence|rewrite SG in X; destruct X]. unfold author in X. rewrite I in X. destruct X as [<-|[]]. exists s. split; [left; reflexivity | left; auto].
      - cbn in V1. destruct (q_sig q) as [s|] eqn:QS; [discriminate|]. assert (SS : signatures q = sigs_of q) by (unfold signatures; rewrite QS; destruct (q_idr q); reflexivity).
        rewrite SS, SG in *.
        assert (IN : forall d, In d (map fst (p :: l)) -> exists s, In (d, s) (p :: l) /\ carries q d s).
        { intros d X. apply in_map_iff in X. destruct X as ((d', s) & E & X). cbn in E. subst d'. exists s. split; [exact X|]. right. rewrite SG. exact X. }
        intros d [X|[X|(s' & X)]].
        + apply IN. unfold author in X. rewrite SG in X. destruct (q_idr q) as [i|]; [destruct X as [<-|[]]; apply mem_In; exact V3 | exact (proj1 (In_sort _ _) X)].
        + apply IN. rewrite X in V2. rewrite !andb_true_iff in V2. destruct V2 as [[_ V2] _]. apply mem_In. exact V2.
        + exists s'. split; [rewrite SG in X; exact X | right; exact X]. }
    split.
    - intros d N. destruct (ALL d N) as (s & IN & C). destruct (sig_key n q d s (F _ IN)) as (k & K & VE). exists s, k. auto.
    - unfold author. destruct (q_idr q) as [i|] eqn:I; [discriminate|]. destruct (sigs_of q) as [|p l]; [cbn in V3; discriminate|].
      intros X. assert (Y : In (fst p) (sort (map fst (p :: l)))) by (apply In_sort; left; reflexivity). rewrite X in Y. destruct Y.
  Qed.

  Definition seen_inv (n0 : node) (es : list event) (n : node) : Prop := forall dg s, get dg (n_seen n) = Some s ->
    exists es1 es2 n1 q, es = es1 ++ es2 /\ run n0 es1 = Some n1 /\ In q (requests es) /\ digest (content q) = dg /\ q_sig q = s /\ validate q = true /\ authenticate n1 q = true.
  Lemma requests_snoc : forall es e q, In q (requests es) -> In q (requests (es ++ [e])).
  Proof. intros es e q Q. unfold requests. rewrite flat_map_app. apply in_or_app. left. exact Q. Qed.
  Lemma seen_step : forall n0 es n e m, seen_inv n0 es n -> run n0 es = Some n -> step n e = Some m -> seen_inv n0 (es ++ [e]) m.
  Proof.
    intros n0 es n e m I R E dg s G.
    assert (OLD : get dg (n_seen n) = Some s -> exists es1 es2 n1 q, es ++ [e] = es1 ++ es2 /\ run n0 es1 = Some n1 /\ In q (requests (es ++ [e])) /\ digest (content q) = dg /\ q_sig q = s /\ validate q = true /\ authenticate n1 q = true).
    { intros G'. destruct (I dg s G') as (es1 & es2 & n1 & q & E1 & R1 & Q & X). exists es1, (es2 ++ [e]), n1, q. rewrite E1, <- app_assoc. split; [reflexivity|].
      split; [exact R1|]. split; [|exact X]. rewrite app_assoc, <- E1. apply requests_snoc. exact Q. }
    destruct e as [xs| | |x|b|q|k]; cbn [Nym_Model.step] in E.
    - destruct (apply_batch threshold (head n) (n_count n) xs) as [l c]. injection E as <-. exact (OLD G).
    - destruct (n_bs n) as [|b bs]; [injection E as <-; exact (OLD G)|]. destruct (add_roles (n_clients n) b); [|discriminate]. injection E as <-. exact (OLD G).
    - injection E as <-. exact (OLD G).
    - destruct (n_bs n); [|injection E as <-; exact (OLD G)]. destruct (add_role (n_clients n) x); [|discriminate]. injection E as <-. exact (OLD G).
    - destruct (add_roles [] (n_com n)); [|discriminate]. injection E as <-. discriminate.
    - injection E as <-. cbn in G. unfold Nym_Model.accept in G.
      assert (NEW : validate q = true -> authenticate n q = true -> get dg (set (digest (content q)) (q_sig q) (n_seen n)) = Some s ->
        exists es1 es2 n1 q0, es ++ [ERequest q] = es1 ++ es2 /\ run n0 es1 = Some n1 /\ In q0 (requests (es ++ [ERequest q])) /\ digest (content q0) = dg /\ q_sig q0 = s /\ validate q0 = true /\ authenticate n1 q0 = true).
      { intros V A G'. rewrite get_set in G'. destruct (Nat.eqb_spec (digest (content q)) dg) as [ED|_]; [|exact (OLD G')]. injection G' as ES.
        exists es, [ERequest q], n, q. split; [reflexivity|]. split; [exact R|]. split; [|auto]. unfold requests. rewrite flat_map_app. apply in_or_app. right. left. reflexivity. }
      destruct (validate q) eqn:V; cbn [negb] in G; [|exact (OLD G)].
      assert (REST : get dg (snd (match q_op q with OQuery _ => (true, n_seen n) | _ => if authenticate n q then (true, set (digest (content q)) (q_sig q) (n_seen n)) else (false, n_seen n) end)) = Some s ->
        exists es1 es2 n1 q0, es ++ [ERequest q] = es1 ++ es2 /\ run n0 es1 = Some n1 /\ In q0 (requests (es ++ [ERequest q])) /\ digest (content q0) = dg /\ q_sig q0 = s /\ validate q0 = true /\ authenticate n1 q0 = true).
      { destruct (q_op q); try (intros G'; exact (OLD G')); destruct (authenticate n q) eqn:A; cbn [snd]; intros G'; [exact (NEW eq_refl eq_refl G') | exact (OLD G') | exact (NEW eq_refl eq_refl G') | exact (OLD G')]. }
      destruct (get (digest (content q)) (n_seen n)) as [s0|]; [destruct (opt_eqb (q_sig q) s0); [exact (OLD G) | exact (REST G)] | exact (REST G)].
    - injection E as <-. cbn in G. apply get_filter in G. exact (OLD G).
  Qed.
  Lemma run_seen : forall n0 es n, n_seen n0 = [] -> run n0 es = Some n -> seen_inv n0 es n.
  Proof.
    intros n0 es n Z. revert n. induction es as [|e es IH] using rev_ind; intros n R; [cbn in R; injection R as <-; intros dg s G; rewrite Z in G; discriminate|].
    destruct (run_snoc _ _ _ _ R) as (n' & R' & S). exact (seen_step n0 es n' e n (IH n' R') R' S).
  Qed.

  (** ** C64: the table of clients *)
  Lemma add_role_spec : forall cl x cl', add_role cl x = Some cl' -> forall d, get d cl' = match get d cl with Some k => Some k | None =>
    if (o_dest (x_op x) =? d) && plain x then did_key d (match o_key (x_op x) with Some k => k | None => None end) else None end.
  Proof.
    intros cl x cl' A d. unfold Nym_Model.add_role in A. destruct (did_key (o_dest (x_op x)) (match o_key (x_op x) with Some k => k | None => None end)) as [k|] eqn:K; [|discriminate].
    unfold plain. destruct (get (o_dest (x_op x)) cl) as [c|] eqn:G.
    - injection A as <-. destruct (get d cl) as [c'|] eqn:G'; [reflexivity|]. destruct (Nat.eqb_spec (o_dest (x_op x)) d) as [E|_]; [congruence|reflexivity].
    - destruct (role_eqb (o_role (x_op x)) STEWARD || role_eqb (o_role (x_op x)) TRUSTEE || role_eqb (o_role (x_op x)) None).
      + injection A as <-. cbn. destruct (Nat.eqb_spec (o_dest (x_op x)) d) as [E|_]; cbn.
        * subst d. rewrite G. symmetry. exact K.
        * destruct (get d cl); reflexivity.
      + injection A as <-. rewrite andb_false_r. destruct (get d cl); reflexivity.
  Qed.
  Lemma first_key_app : forall d a b, first_key d (a ++ b) = match find (fun x => (o_dest (x_op x) =? d) && plain x) a with Some _ => first_key d a | None => first_key d b end.
  Proof.
    intros d a b. unfold Nym_Spec.first_key. induction a as [|x a IH]; cbn; [reflexivity|]. destruct ((o_dest (x_op x) =? d) && plain x); [reflexivity|exact IH].
  Qed.
  Lemma add_roles_spec : forall xs l cl cl', (forall d, get d cl = first_key d l) -> Forall keyed l -> add_roles cl xs = Some cl' ->
    (forall d, get d cl' = first_key d (l ++ xs)) /\ Forall keyed (l ++ xs).
  Proof.
    induction xs as [|x xs IH]; intros l cl cl' H FK A; cbn in A.
    - injection A as <-. rewrite app_nil_r. auto.
    - destruct (add_role cl x) as [c|] eqn:AR; [|discriminate]. change (x :: xs) with ([x] ++ xs). rewrite app_assoc.
      assert (KX : keyed x). { unfold Nym_Spec.keyed. unfold Nym_Model.add_role in AR. intros Z. rewrite Z in AR. discriminate. }
      apply (IH (l ++ [x]) c cl'); [|apply Forall_app; split; [exact FK | constructor; [exact KX|constructor]]|exact A]. intros d. rewrite (add_role_spec cl x c AR d), H, first_key_app.
      unfold Nym_Spec.first_key at 1. destruct (find (fun y => (o_dest (x_op y) =? d) && plain y) l) as [y|] eqn:F.
      + assert (KY : keyed y) by (rewrite Forall_forall in FK; apply FK; exact (proj1 (find_some _ _ F))). destruct (find_some _ _ F) as [_ E]. apply andb_true_iff in E. destruct E as [E _]. apply Nat.eqb_eq in E. subst d.
        unfold Nym_Spec.first_key. rewrite F. unfold Nym_Spec.keyed in KY. destruct (did_key (o_dest (x_op y)) (match o_key (x_op y) with Some k => k | None => None end)) as [k|]; [reflexivity|congruence].
      + unfold Nym_Spec.first_key. cbn. destruct ((o_dest (x_op x) =? d) && plain x); reflexivity.
  Qed.
  Lemma add_roles_total : forall xs cl, Forall keyed xs -> exists cl', add_roles cl xs = Some cl'.
  Proof.
    induction xs as [|x xs IH]; intros cl F; cbn; [exists cl; reflexivity|]. inversion F as [|y l K F']; subst. unfold Nym_Model.add_role at 1.
    unfold Nym_Spec.keyed in K. destruct (did_key (o_dest (x_op x)) (match o_key (x_op x) with Some k => k | None => None end)) as [k|]; [|congruence].
    destruct (get (o_dest (x_op x)) cl); [exact (IH _ F')|]. destruct (role_eqb (o_role (x_op x)) STEWARD || role_eqb (o_role (x_op x)) TRUSTEE || role_eqb (o_role (x_op x)) None); exact (IH _ F').
  Qed.

  Definition tab (n : node) : Prop := (forall d, get d (n_clients n) = first_key d (n_com n)) /\ Forall keyed (n_com n).
  Lemma init_tab : forall g n, init long own join g = Some n -> tab n.
  Proof.
    intros g n E. unfold init in E. destruct (add_roles [] g) as [cl|] eqn:A; [|discriminate]. injection E as <-. unfold tab. cbn.
    apply (add_roles_spec g [] [] cl); [reflexivity|constructor|exact A].
  Qed.
  Lemma step_tab : forall n e m, tab n -> step n e = Some m -> tab m.
  Proof.
    intros n e m [T K] E. destruct e as [xs| | |x|b|q|k]; cbn [Nym_Model.step] in E.
    - destruct (apply_batch threshold (head n) (n_count n) xs) as [l c]. injection E as <-. split; assumption.
    - destruct (n_bs n) as [|b bs]; [injection E as <-; split; assumption|]. destruct (add_roles (n_clients n) b) as [cl|] eqn:A; [|discriminate]. injection E as <-.
      exact (add_roles_spec b (n_com n) (n_clients n) cl T K A).
    - injection E as <-. split; assumption.
    - destruct (n_bs n); [|injection E as <-; split; assumption]. destruct (add_role (n_clients n) x) as [cl|] eqn:A; [|discriminate]. injection E as <-.
      apply (add_roles_spec [x] (n_com n) (n_clients n) cl T K). cbn. rewrite A. reflexivity.
    - destruct (add_roles [] (n_com n)) as [cl|] eqn:A; [|discriminate]. injection E as <-. apply (add_roles_spec (n_com n) [] [] cl); [reflexivity|constructor|exact A].
    - injection E as <-. split; assumption.
    - injection E as <-. split; assumption.
  Qed.
  Lemma run_tab : forall es n m, tab n -> run n es = Some m -> tab m.
  Proof. induction es as [|e es IH]; intros n m T R; cbn in R; [injection R as <-; exact T|]. destruct (step n e) as [n'|] eqn:E; [|discriminate]. exact (IH n' m (step_tab n e n' T E) R). Qed.

  Lemma apply_batch_incl : forall xs s c l c', apply_batch threshold s c xs = (l, c') -> incl l xs.
  Proof.
    induction xs as [|x xs IH]; intros s c l c' E; cbn in E; [injection E as <- <-; intros y []|].
    destruct (nym_ok threshold s c x).
    - destruct (apply_batch threshold (update_state s x) (update_count s c x) xs) as [l0 c0] eqn:E0. injection E as <- <-. intros y [<-|Y]; [left; reflexivity | right; exact (IH _ _ _ _ E0 y Y)].
    - intros y Y. right. exact (IH _ _ _ _ E y Y).
  Qed.
  Lemma step_keyed : forall n e, Forall keyed (n_com n) -> Forall (Forall keyed) (n_bs n) ->
    match e with EBatch xs => forall x, In x xs -> keyed x | ECaught x => keyed x | _ => True end ->
    exists m, step n e = Some m /\ Forall keyed (n_com m) /\ Forall (Forall keyed) (n_bs m).
  Proof.
    intros n e K B H. destruct e as [xs| | |x|b|q|k]; cbn [Nym_Model.step].
    - destruct (apply_batch threshold (head n) (n_count n) xs) as [l c] eqn:A. eexists. split; [reflexivity|]. split; [exact K|]. cbn. apply Forall_app. split; [exact B|].
      constructor; [|constructor]. apply Forall_forall. intros x X. apply H. exact (apply_batch_incl _ _ _ _ _ A x X).
    - destruct (n_bs n) as [|b bs] eqn:NB; [eexists; split; [reflexivity|]; rewrite NB; split; [exact K|constructor]|]. inversion B as [|y l B1 B2]; subst. destruct (add_roles_total b (n_clients n) B1) as (cl & ->).
      eexists. split; [reflexivity|]. cbn. split; [apply Forall_app; split; assumption | exact B2].
    - eexists. split; [reflexivity|]. split; [exact K|]. cbn. clear - B. induction (n_bs n) as [|b bs IH]; [constructor|]. inversion B as [|y l B1 B2]; subst. cbn. destruct bs; [constructor|]. constructor; [exact B1 | exact (IH B2)].
    - destruct (n_bs n) as [|b bs] eqn:NB; [|eexists; split; [reflexivity|]; rewrite NB; split; [exact K | exact B]].
      destruct (add_roles_total [x] (n_clients n)) as (cl & A); [constructor; [exact H|constructor]|]. cbn in A. destruct (add_role (n_clients n) x) as [c|]; [|discriminate]. eexists. split; [reflexivity|]. cbn.
      split; [apply Forall_app; split; [exact K | constructor; [exact H|constructor]] | constructor].
    - destruct (add_roles_total (n_com n) [] K) as (cl & ->). eexists. split; [reflexivity|]. split; [exact K|constructor].
    - eexists. split; [reflexivity|]. split; assumption.
    - eexists. split; [reflexivity|]. split; assumption.
  Qed.
  Lemma run_keyed : forall es n, Forall keyed (n_com n) -> Forall (Forall keyed) (n_bs n) -> all_keyed long own join es -> exists m, run n es = Some m.
  Proof.
    induction es as [|e es IH]; intros n K B H; cbn; [exists n; reflexivity|]. destruct (step_keyed n e K B (H e (or_introl eq_refl))) as (m & -> & K' & B').
    apply (IH m K' B'). intros x X. apply H. right. exact X.
  Qed.

  (** the record of an identity whose key never changed *)
  Lemma key_of_ledger : forall l d v, never_changed l d v -> match get d (state_of l) with Some r => r_key r = Some v | None => forall x, In x l -> o_dest (x_op x) <> d end.
  Proof.
    induction l as [|x l IH] using rev_ind; intros d v N; [cbn; intros x []|]. rewrite state_of_snoc. unfold update_state. rewrite get_set.
    assert (N' : never_changed l d v) by (intros y Y; apply N; apply in_or_app; left; exact Y). specialize (IH d v N').
    destruct (Nat.eqb_spec (o_dest (x_op x)) d) as [E|NE].
    - unfold new_rec. cbn. rewrite (N x (in_or_app l [x] x (or_intror (in_eq x []))) E). reflexivity.
    - destruct (get d (state_of l)); [exact IH|]. intros y Y. apply in_app_or in Y. destruct Y as [Y|[<-|[]]]; [exact (IH y Y) | exact NE].
  Qed.

  (** ** C63 *)
  Lemma steward_spec : forall s a, is_steward s a = true -> exists d r, a = [d] /\ get d s = Some r /\ r_role r = STEWARD.
  Proof.
    intros s [|d [|e a]] H; cbn in H; try discriminate. unfold was_steward in H. destruct (get d s) as [r|] eqn:G; [|discriminate]. apply role_eqb_eq in H. exists d, r. auto.
  Qed.
  Definition step_ok (l : list txn) (x : txn) : Prop := exists d r, x_from x = [d] /\ get d (state_of l) = Some r /\ r_role r = STEWARD.
  Lemma by_stewards_nil : forall g, by_stewards g g.
  Proof. intros g a x b E L. exfalso. assert (Z : length g = length (a ++ x :: b)) by (rewrite <- E; reflexivity). rewrite app_length in Z. cbn in Z. lia. Qed.
  Lemma by_stewards_snoc : forall g l x, by_stewards g l -> step_ok l x -> by_stewards g (l ++ [x]).
  Proof.
    intros g l x B S a y b E L. destruct (exists_last (l := y :: b)) as (b' & z & Z); [discriminate|]. rewrite Z, app_assoc in E. apply app_inj_tail in E. destruct E as [E1 E2]. subst z.
    destruct b' as [|w b'].
    - cbn in Z. injection Z as -> ->. rewrite app_nil_r in E1. subst a. exact S.
    - cbn in Z. injection Z as -> Z. exact (B a w b' E1 L).
  Qed.
  Lemma by_stewards_prefix : forall g l m, by_stewards g (l ++ m) -> by_stewards g l.
  Proof. intros g l m B a x b E L. apply (B a x (b ++ m)); [rewrite E, <- app_assoc; reflexivity | exact L]. Qed.
  Lemma apply_batch_by : forall xs g l c l' c', by_stewards g l -> apply_batch threshold (state_of l) c xs = (l', c') -> by_stewards g (l ++ l').
  Proof.
    induction xs as [|x xs IH]; intros g l c l' c' B E; cbn in E; [injection E as <- <-; rewrite app_nil_r; exact B|].
    destruct (nym_ok threshold (state_of l) c x) eqn:O.
    - destruct (apply_batch threshold (update_state (state_of l) x) (update_count (state_of l) c x) xs) as [l0 c0] eqn:E0. injection E as <- <-. rewrite <- state_of_snoc in E0.
      change (x :: l0) with ([x] ++ l0). rewrite app_assoc. apply (IH g (l ++ [x]) _ _ _ (by_stewards_snoc g l x B (steward_spec _ _ (proj1 (proj1 (andb_true_iff _ _) O)))) E0).
    - exact (IH g l c l' c' B E).
  Qed.
  Lemma concat_removelast : forall {A} (ls : list (list A)), exists m, concat ls = concat (removelast ls) ++ m.
  Proof.
    intros A ls. destruct ls as [|x ls] using rev_ind; [exists []; reflexivity|]. exists x. rewrite removelast_last, concat_app. cbn. rewrite app_nil_r. reflexivity.
  Qed.
  Lemma step_by : forall g n e m, by_stewards g (ledger n) -> caught_by_steward n e -> step n e = Some m -> by_stewards g (ledger m).
  Proof.
    intros g n e m B F E. unfold ledger in *. destruct e as [xs| | |x|b|q|k]; cbn [Nym_Model.step] in E.
    - unfold head in E. destruct (apply_batch threshold (state_of (n_com n ++ concat (n_bs n))) (n_count n) xs) as [l c] eqn:A. injection E as <-. cbn. rewrite concat_app. cbn. rewrite app_nil_r, app_assoc.
      exact (apply_batch_by _ _ _ _ _ _ B A).
    - destruct (n_bs n) as [|b bs] eqn:NB; [injection E as <-; rewrite NB; exact B|]. destruct (add_roles (n_clients n) b); [|discriminate]. injection E as <-. cbn in B |- *. rewrite <- app_assoc. exact B.
    - injection E as <-. cbn. destruct (concat_removelast (n_bs n)) as (r & R). rewrite R, app_assoc in B. exact (by_stewards_prefix _ _ _ B).
    - destruct (n_bs n) as [|b bs] eqn:NB; [|injection E as <-; rewrite NB; exact B]. destruct (add_role (n_clients n) x); [|discriminate]. injection E as <-. cbn in B |- *. rewrite app_nil_r in B |- *.
      cbn in F. unfold head in F. rewrite NB in F. cbn in F. rewrite app_nil_r in F. exact (by_stewards_snoc _ _ _ B F).
    - destruct (add_roles [] (n_com n)); [|discriminate]. injection E as <-. cbn. rewrite app_nil_r. exact (by_stewards_prefix _ _ _ B).
    - injection E as <-. exact B.
    - injection E as <-. exact B.
  Qed.
  Lemma run_by : forall g es n m, by_stewards g (ledger n) -> along long own join verifies digest threshold caught_by_steward n es -> run n es = Some m -> by_stewards g (ledger m).
  Proof.
    intros g. induction es as [|e es IH]; intros n m B A R; cbn in R, A; [injection R as <-; exact B|]. destruct A as [A1 A2]. destruct (step n e) as [n'|] eqn:E; [|discriminate].
    exact (IH n' m (step_by g n e n' B A1 E) A2 R).
  Qed.

  (** the number of stewards *)
  Lemma stewards_set : forall s d r, Z.of_nat (stewards (set d r s)) = (Z.of_nat (stewards s) + (if role_eqb (r_role r) STEWARD then 1 else 0) - (if was_steward s d then 1 else 0))%Z.
  Proof.
    unfold stewards, was_steward. induction s as [|[k w] s IH]; intros d r; cbn [set get].
    - cbn. destruct (role_eqb (r_role r) STEWARD); cbn; lia.
    - destruct (Nat.eqb_spec k d) as [->|NE]; cbn [filter snd].
      + destruct (role_eqb (r_role r) STEWARD), (role_eqb (r_role w) STEWARD); cbn [length]; lia.
      + specialize (IH d r). destruct (role_eqb (r_role w) STEWARD); cbn [length]; lia.
  Qed.
  Lemma count_update : forall s x, update_count s (Z.of_nat (stewards s)) x = Z.of_nat (stewards (update_state s x)).
  Proof.
    intros s x. unfold update_state. rewrite stewards_set. cbn. unfold update_count. destruct (was_steward s (o_dest (x_op x))), (role_eqb (o_role (x_op x)) STEWARD); cbn; lia.
  Qed.
  Lemma count_all_spec : forall l s, count_all s (Z.of_nat (stewards s)) l = Z.of_nat (stewards (fold_left update_state l s)).
  Proof. induction l as [|x l IH]; intros s; cbn; [reflexivity|]. rewrite count_update. apply IH. Qed.
  Definition bound (g : list txn) : Z := Z.max threshold (Z.of_nat (stewards (state_of g))).
  (** every prefix of the ledger after the genesis keeps the bound *)
  Definition bounded (g l : list txn) : Prop := forall a b, l = a ++ b -> length g <= length a -> (Z.of_nat (stewards (state_of a)) <= bound g)%Z.
  Lemma bounded_snoc : forall g l x, bounded g l -> length g <= length l -> (role_eqb (o_role (x_op x)) STEWARD = true -> (Z.of_nat (stewards (state_of l)) < threshold)%Z) -> bounded g (l ++ [x]).
  Proof.
    intros g l x B L H a b E LA. destruct (exists_last (l := x :: b)) as (_ & _ & _); [discriminate|]. destruct b as [|y b].
    - rewrite app_nil_r in E. subst a. rewrite state_of_snoc. unfold update_state. rewrite stewards_set. cbn. specialize (B l [] (eq_sym (app_nil_r l)) L). unfold bound in *.
      destruct (role_eqb (o_role (x_op x)) STEWARD); [specialize (H eq_refl)|]; destruct (was_steward (state_of l) (o_dest (x_op x))); lia.
    - destruct (exists_last (l := y :: b)) as (b' & z & Z); [discriminate|]. rewrite Z, app_assoc in E. apply app_inj_tail in E. exact (B a b' (proj1 E) LA).
  Qed.
  Lemma apply_batch_bounded : forall xs g l l' c', bounded g l -> length g <= length l -> apply_batch threshold (state_of l) (Z.of_nat (stewards (state_of l))) xs = (l', c') ->
    bounded g (l ++ l') /\ c' = Z.of_nat (stewards (state_of (l ++ l'))).
  Proof.
    induction xs as [|x xs IH]; intros g l l' c' B L E; cbn in E; [injection E as <- <-; rewrite app_nil_r; auto|].
    destruct (nym_ok threshold (state_of l) (Z.of_nat (stewards (state_of l))) x) eqn:O.
    - rewrite count_update, <- state_of_snoc in E. destruct (apply_batch threshold (state_of (l ++ [x])) (Z.of_nat (stewards (state_of (l ++ [x])))) xs) as [l0 c0] eqn:E0. injection E as <- <-.
      change (x :: l0) with ([x] ++ l0). rewrite app_assoc. apply (IH g (l ++ [x]) l0 c0); [|rewrite app_length; lia | exact E0]. apply bounded_snoc; [exact B | exact L|].
      intros S. unfold nym_ok in O. rewrite S in O. apply andb_true_iff in O. destruct O as [_ O]. cbn in O. apply negb_true_iff, Z.leb_gt in O. exact O.
    - exact (IH g l l' c' B L E).
  Qed.
  Definition counted (g : list txn) (n : node) : Prop :=
    n_count n = Z.of_nat (stewards (head n)) /\ bounded g (ledger n) /\ length g <= length (n_com n).
  Lemma step_counted : forall g n e m, counted g n -> calm threshold n e -> step n e = Some m -> counted g m.
  Proof.
    intros g n e m (C & B & L) F E. unfold counted, ledger, head in *. destruct e as [xs| | |x|b|q|k]; cbn [Nym_Model.step] in E.
    - unfold head in E. rewrite C in E. destruct (apply_batch threshold (state_of (n_com n ++ concat (n_bs n))) (Z.of_nat (stewards (state_of (n_com n ++ concat (n_bs n))))) xs) as [l c] eqn:A. injection E as <-. cbn.
      rewrite concat_app. cbn. rewrite app_nil_r, app_assoc. assert (LE : length g <= length (n_com n ++ concat (n_bs n))) by (rewrite app_length; lia).
      destruct (apply_batch_bounded xs g (n_com n ++ concat (n_bs n)) l c B LE A) as [X Y]. auto.
    - destruct (n_bs n) as [|b bs] eqn:NB; [injection E as <-; rewrite NB; auto|]. destruct (add_roles (n_clients n) b); [|discriminate]. injection E as <-. cbn in *. rewrite <- app_assoc. split; [exact C|]. split; [exact B|]. rewrite app_length. lia.
    - destruct F.
    - destruct (n_bs n) as [|b bs] eqn:NB; [|injection E as <-; rewrite NB; auto]. destruct (add_role (n_clients n) x); [|discriminate]. injection E as <-. cbn in *. rewrite app_nil_r in *. unfold head in F. rewrite NB in F. cbn in F. rewrite app_nil_r in F.
      split; [unfold head; rewrite NB; cbn [concat]; rewrite app_nil_r, C, count_update, <- state_of_snoc; reflexivity|]. split; [exact (bounded_snoc g _ x B L F)|]. rewrite app_length. lia.
    - cbn in F. subst b. destruct (add_roles [] (n_com n)); [|discriminate]. injection E as <-. cbn. rewrite app_nil_r. split; [exact (count_all_spec (n_com n) [])|]. split; [|exact L].
      intros a b E LA. apply (B a (b ++ concat (n_bs n))); [rewrite E, app_assoc; reflexivity | exact LA].
    - injection E as <-. auto.
    - injection E as <-. auto.
  Qed.
  Lemma run_counted : forall g es n m, counted g n -> along long own join verifies digest threshold (calm threshold) n es -> run n es = Some m -> counted g m.
  Proof.
    intros g. induction es as [|e es IH]; intros n m B A R; cbn in R, A; [injection R as <-; exact B|]. destruct A as [A1 A2]. destruct (step n e) as [n'|] eqn:E; [|discriminate].
    exact (IH n' m (step_counted g n e n' B A1 E) A2 R).
  Qed.
  Lemma init_counted : forall g n, init long own join g = Some n -> counted g n.
  Proof.
    intros g n E. unfold init in E. destruct (add_roles [] g) as [cl|]; [|discriminate]. injection E as <-. unfold counted, ledger, head. cbn. rewrite app_nil_r. split; [exact (count_all_spec g [])|]. split; [|lia].
    intros a b E LA. assert (b = []) by (destruct b; [reflexivity|]; rewrite E, app_length in LA; cbn in LA; lia). subst b. rewrite app_nil_r in E. subst a. unfold bound. lia.
  Qed.
End P.
