(** Lemmas for C55. *)
From Coq Require Import List Arith Bool Lia.
From Verif Require Import Base Dict Audit_Model NodeLeecher_Model NodeLeecher_Spec.
Import ListNotations.
Local Open Scope res_scope.

Lemma set_keys_same {V} k (v : V) d : get k d <> None -> map fst (set k v d) = map fst d.
Proof.
  induction d as [|(k0, v0) d IH]; intros G; [exfalso; exact (G eq_refl)|]. cbn [set get] in *.
  destruct (k =? k0) eqn:E; [apply Nat.eqb_eq in E; subst k0; reflexivity|]. cbn [map fst]. f_equal. exact (IH G).
Qed.
Lemma in_keys {V} k (d : dict V) : In k (map fst d) <-> get k d <> None.
Proof. pose proof (get_none k d) as H. destruct (get k d); [split; [discriminate|] | split; [intros X; tauto | intros X; congruence]].
  intros _. destruct (in_dec Nat.eq_dec k (map fst d)) as [I|N]; [exact I|]. apply H in N. discriminate N.
Qed.
Lemma acts_app a b : acts (a ++ b) = acts a ++ acts b.
Proof. apply flat_map_app. Qed.

(** *** list.remove *)
Lemma remove1_filter : forall x l, NoDup l -> In x l -> remove1 x l = Some (filter (fun y => negb (y =? x)) l).
Proof.
  induction l as [|y l IH]; intros ND I; [destruct I|]. inversion ND as [|? ? N1 N2]; subst. cbn [remove1 filter].
  rewrite (Nat.eqb_sym y x). destruct (x =? y) eqn:E; cbn [negb].
  - apply Nat.eqb_eq in E. subst y. f_equal. clear -N1. induction l as [|z l IH]; [reflexivity|]. cbn [filter].
    destruct (Nat.eqb_spec z x) as [->|N]; [exfalso; apply N1; left; reflexivity|]. cbn [negb]. f_equal. apply IH. intros X. apply N1. right. exact X.
  - destruct I as [->|I]; [rewrite Nat.eqb_refl in E; discriminate|]. rewrite (IH N2 I). reflexivity.
Qed.
Lemma remove1_none : forall x l, ~ In x l -> remove1 x l = None.
Proof.
  induction l as [|y l IH]; intros N; [reflexivity|]. cbn [remove1]. destruct (Nat.eqb_spec x y) as [->|NE]; [exfalso; apply N; left; reflexivity|].
  rewrite IH; [reflexivity|]. intros X. apply N. right. exact X.
Qed.
Lemma filter_filter {A} (f g : A -> bool) l : filter f (filter g l) = filter (fun x => g x && f x) l.
Proof. induction l as [|a l IH]; [reflexivity|]. cbn [filter]. destruct (g a); cbn [filter andb]; [destruct (f a); rewrite IH; reflexivity | exact IH]. Qed.
Lemma filter_id {A} (f : A -> bool) l : (forall x, In x l -> f x = true) -> filter f l = l.
Proof. induction l as [|a l IH]; intros H; [reflexivity|]. cbn [filter]. rewrite (H a (or_introl eq_refl)), IH; [reflexivity|]. intros x I. apply H. right. exact I. Qed.
Lemma remove_frozen : forall fr l, NoDup l ->
  fold_left (fun l f => match remove1 f l with Some l' => l' | None => l end) fr l = filter (fun x => negb (existsb (Nat.eqb x) fr)) l.
Proof.
  induction fr as [|f fr IH]; intros l ND; cbn [fold_left existsb].
  - rewrite filter_id; [reflexivity | reflexivity].
  - assert (E : (match remove1 f l with Some l' => l' | None => l end) = filter (fun y => negb (y =? f)) l).
    { destruct (in_dec Nat.eq_dec f l) as [I|N]; [rewrite (remove1_filter f l ND I); reflexivity|]. rewrite (remove1_none f l N), filter_id; [reflexivity|].
      intros x I. destruct (Nat.eqb_spec x f); [congruence | reflexivity]. }
    rewrite E, IH by (apply NoDup_filter; exact ND). rewrite filter_filter. apply filter_ext. intros x. rewrite negb_orb. reflexivity.
Qed.
Lemma index_of_app : forall x a b, ~ In x a -> index_of x (a ++ x :: b) = Some (length a).
Proof.
  induction a as [|y a IH]; intros b N; cbn [app index_of length]; [rewrite Nat.eqb_refl; reflexivity|].
  destruct (Nat.eqb_spec x y) as [->|NE]; [exfalso; apply N; left; reflexivity|]. rewrite IH; [reflexivity|]. intros X. apply N. right. exact X.
Qed.

Section Proofs.
  Variable root : list bytes -> bytes.
  Variable reg : list nat.
  Hypothesis reg_ok : registered_ok reg.
  Notation step := (step root).
  Notation run := (run root).
  Notation T_of := (calc_catchup_till root).

  Lemma ids_others : forall w s, map fst (s_leechers s) = reg ->
    exists l1 l2 l3, remove1 AUDIT_LEDGER_ID (map fst (s_leechers s)) = Some l1 /\ remove1 POOL_LEDGER_ID l1 = Some l2 /\
      remove1 CONFIG_LEDGER_ID l2 = Some l3 /\
      fold_left (fun l f => match remove1 f l with Some l' => l' | None => l end) (w_frozen w) l3 = others reg (w_frozen w).
  Proof.
    intros w s K. destruct reg_ok as (ND & IA & IP & IC). rewrite K.
    set (f x := fun y : nat => negb (y =? x)).
    assert (H1 : remove1 AUDIT_LEDGER_ID reg = Some (filter (f AUDIT_LEDGER_ID) reg)) by exact (remove1_filter _ _ ND IA).
    set (l1 := filter (f AUDIT_LEDGER_ID) reg) in *. assert (N1 : NoDup l1) by (apply NoDup_filter; exact ND).
    assert (H2 : remove1 POOL_LEDGER_ID l1 = Some (filter (f POOL_LEDGER_ID) l1)) by (apply remove1_filter; [exact N1 | apply filter_In; split; [exact IP | reflexivity]]).
    set (l2 := filter (f POOL_LEDGER_ID) l1) in *. assert (N2 : NoDup l2) by (apply NoDup_filter; exact N1).
    assert (H3 : remove1 CONFIG_LEDGER_ID l2 = Some (filter (f CONFIG_LEDGER_ID) l2)).
    { apply remove1_filter; [exact N2 |]. apply filter_In; split; [apply filter_In; split; [exact IC | reflexivity] | reflexivity]. }
    exists l1, l2, (filter (f CONFIG_LEDGER_ID) l2). split; [exact H1|]. split; [exact H2|]. split; [exact H3|].
    rewrite remove_frozen by (apply NoDup_filter; exact N2). unfold l2, l1, others. rewrite !filter_filter. apply filter_ext. intros x. unfold f.
    rewrite !negb_orb, !andb_assoc. reflexivity.
  Qed.
  Lemma others_nodup : forall fr, NoDup (others reg fr).
  Proof. intros fr. apply NoDup_filter. exact (proj1 reg_ok). Qed.
  Lemma next_first : forall w s, map fst (s_leechers s) = reg -> get_next_ledger w s None = Ok (match others reg (w_frozen w) with [] => None | i :: _ => Some i end).
  Proof.
    intros w s K. unfold get_next_ledger. destruct (ids_others w s K) as (l1 & l2 & l3 & -> & -> & -> & ->).
    destruct (others reg (w_frozen w)); reflexivity.
  Qed.
  Lemma next_after : forall w s a l b, map fst (s_leechers s) = reg -> others reg (w_frozen w) = a ++ l :: b ->
    get_next_ledger w s (Some l) = Ok (match b with [] => None | i :: _ => Some i end).
  Proof.
    intros w s a l b K E. unfold get_next_ledger. destruct (ids_others w s K) as (l1 & l2 & l3 & -> & -> & -> & ->). rewrite E.
    assert (ND : NoDup (a ++ l :: b)) by (rewrite <- E; apply others_nodup). apply NoDup_remove_2 in ND.
    destruct (a ++ l :: b) as [|i0 ids] eqn:EI; [destruct a; discriminate EI|]. rewrite <- EI.
    rewrite index_of_app by (intros X; apply ND, in_or_app; left; exact X). rewrite app_length. cbn [length].
    destruct b as [|i b].
    - cbn [length]. destruct (Nat.eqb_spec (S (length a)) (length a + 1)); [reflexivity | lia].
    - cbn [length]. destruct (Nat.eqb_spec (S (length a)) (length a + S (S (length b)))); [lia|].
      rewrite nth_error_app2 by lia. replace (S (length a) - length a) with 1 by lia. reflexivity.
  Qed.

  (** *** starting one ledger *)
  Lemma leecher_start_eff : forall s lid b t z s' os, map fst (s_leechers s) = reg -> leecher_start s lid b t z = Ok (s', os) ->
    map fst (s_leechers s') = reg /\ s_state s' = s_state s /\ s_till s' = s_till s /\ s_cur s' = s_cur s /\
    acts os = [match t with None => Search lid b | Some t' => Fetch lid (if t_start t' =? t_final t' then None else Some t') end].
  Proof.
    intros s lid b t z s' os K E. unfold leecher_start in E. destruct (get lid (s_leechers s)) as [l|] eqn:G; [|discriminate E].
    destruct t as [t'|]; injection E as <- <-; cbn [with_leecher with_sizes s_leechers s_state s_till s_cur];
      rewrite set_keys_same by congruence; repeat split; exact K || reflexivity.
  Qed.
  Lemma catchup_eff : forall w s lid s' os, map fst (s_leechers s) = reg -> catchup_ledger w s lid = Ok (s', os) ->
    map fst (s_leechers s') = reg /\ s_state s' = s_state s /\ s_till s' = s_till s /\ s_cur s' = s_cur s /\ acts os = [start_of (s_till s) lid].
  Proof.
    intros w s lid s' os K E. unfold catchup_ledger in E. destruct (get lid (s_leechers s)) as [l|] eqn:G; [|discriminate E].
    unfold start_of. destruct (get lid (s_till s)) as [t|].
    - destruct (calc_nodes_ledger_sizes w s lid) as [z|] eqn:Z; [|discriminate E]. cbn [bind] in E. exact (leecher_start_eff _ _ _ _ _ _ _ K E).
    - exact (leecher_start_eff _ _ _ _ _ _ _ K E).
  Qed.

  (** the ledger whose completion the service waits for *)
  Definition awaited (s : svc) : option nat :=
    match s_state s with SyncingOthers => s_cur s | x => state_to_ledger x end.
  Lemma validate_awaited : forall s lid, validate_complete s lid = match awaited s with Some c => lid =? c | None => false end.
  Proof. intros s lid. unfold validate_complete, awaited. destruct (s_state s); reflexivity. Qed.

  (** *** events that change nothing of interest *)
  Definition same (s s' : svc) : Prop :=
    map fst (s_leechers s') = reg /\ s_state s' = s_state s /\ s_till s' = s_till s /\ s_cur s' = s_cur s.
  Lemma other_event : forall w s e s' os, map fst (s_leechers s) = reg -> step w s e = Ok (s', os) ->
    match e with EStart _ => False | EProof _ _ _ => True | EDone l _ => awaited s <> Some l end -> same s s' /\ acts os = [].
  Proof.
    intros w s e s' os K E H. unfold same. destruct e as [i|lid t z|lid n]; [destruct H| |]; cbn [NodeLeecher_Model.step] in E.
    - destruct (get lid (s_leechers s)) as [l|] eqn:G; [|discriminate E]. injection E as <- <-.
      cbn [with_leecher with_sizes s_leechers s_state s_till s_cur]. rewrite set_keys_same by congruence. repeat split; exact K || reflexivity.
    - destruct (get lid (s_leechers s)) as [l|] eqn:G; [|discriminate E]. unfold on_complete in E.
      rewrite validate_awaited in E. change (awaited (with_leecher s lid (mkLe synced None n))) with (awaited s) in E.
      assert (B : (match awaited s with Some c => lid =? c | None => false end) = false).
      { destruct (awaited s) as [c|]; [|reflexivity]. destruct (Nat.eqb_spec lid c) as [->|]; [congruence | reflexivity]. }
      rewrite B in E. cbn [negb] in E. injection E as <- <-. cbn [with_leecher s_leechers s_state s_till s_cur].
      rewrite set_keys_same by congruence. repeat split; exact K || reflexivity.
  Qed.

  Lemma run_cons : forall s e w es s' os, run s ((e, w) :: es) = Ok (s', os) ->
    exists s1 o1 o2, step w s e = Ok (s1, o1) /\ run s1 es = Ok (s', o2) /\ os = o1 ++ o2.
  Proof.
    intros s e w es s' os E. cbn [NodeLeecher_Model.run] in E. destruct (step w s e) as [[s1 o1]|] eqn:E1; [|discriminate E].
    cbn [bind fst snd] in E. destruct (run s1 es) as [[s2 o2]|] eqn:E2; [|discriminate E]. cbn [bind fst snd] in E.
    injection E as <- <-. exists s1, o1, o2. auto.
  Qed.
  Lemma no_start_tl : forall x es, no_start (x :: es) -> no_start es.
  Proof. intros x es H i w I. exact (H i w (or_intror I)). Qed.
  Lemma frozen_tl : forall fr x es, frozen_is fr (x :: es) -> frozen_is fr es.
  Proof. intros fr x es H l n w I. exact (H l n w (or_intror I)). Qed.

  (** Waiting for [l]: nothing happens until it is reported complete. *)
  Lemma wait : forall l es s s' os, map fst (s_leechers s) = reg -> awaited s = Some l -> no_start es -> run s es = Ok (s', os) ->
    match until_done l es with
    | None => acts os = [] /\ awaited s' = Some l
    | Some (w, es') => exists s1 s2 n o2 o3, same s s1 /\ step w s1 (EDone l n) = Ok (s2, o2) /\ run s2 es' = Ok (s', o3) /\
        acts os = acts o2 ++ acts o3 /\ In (EDone l n, w) es /\ exists a, es = a ++ (EDone l n, w) :: es'
    end.
  Proof.
    induction es as [|[e w] es IH]; intros s s' os K AW NS R.
    - cbn in *. injection R as <- <-. auto.
    - destruct (run_cons _ _ _ _ _ _ R) as (s1 & o1 & o2 & E1 & R2 & ->).
      assert (CASE : (exists n, e = EDone l n) \/ (match e with EStart _ => False | EProof _ _ _ => True | EDone x _ => awaited s <> Some x end /\
                       until_done l ((e, w) :: es) = until_done l es)).
      { destruct e as [i|lid t z|lid n]; [exfalso; exact (NS i w (or_introl eq_refl)) | right; split; [exact Logic.I | reflexivity] |].
        destruct (Nat.eqb_spec lid l) as [->|N]; [left; exists n; reflexivity|]. right. split; [congruence|]. cbn [until_done].
        apply Nat.eqb_neq in N. rewrite N. reflexivity. }
      destruct CASE as [(n & ->)|[H U]].
      + cbn [until_done]. rewrite Nat.eqb_refl. exists s, s1, n, o1, o2. unfold same. rewrite acts_app.
        repeat split; auto; [left; reflexivity | exists []; reflexivity].
      + rewrite U. destruct (other_event w s e s1 o1 K E1 H) as [SM A1]. destruct SM as (K1 & S1 & T1 & C1).
        assert (AW1 : awaited s1 = Some l) by (unfold awaited in *; rewrite S1, C1; exact AW).
        specialize (IH s1 s' o2 K1 AW1 (no_start_tl _ _ NS) R2). rewrite acts_app, A1. cbn [app].
        destruct (until_done l es) as [[w' es']|]; [|exact IH].
        destruct IH as (s3 & s4 & n & o4 & o5 & SM & E4 & R4 & A4 & I4 & a & ->). exists s3, s4, n, o4, o5.
        split; [unfold same in *; destruct SM as (? & ? & ? & ?); repeat split; congruence|]. split; [exact E4|]. split; [exact R4|]. split; [exact A4|].
        split; [right; exact I4 | exists ((e, w) :: a); reflexivity].
  Qed.
  Lemma idle_run : forall es s s' os, map fst (s_leechers s) = reg -> awaited s = None -> no_start es -> run s es = Ok (s', os) -> acts os = [] /\ same s s'.
  Proof.
    induction es as [|[e w] es IH]; intros s s' os K AW NS R.
    - cbn in R. injection R as <- <-. repeat split; exact K || reflexivity.
    - destruct (run_cons _ _ _ _ _ _ R) as (s1 & o1 & o2 & E1 & R2 & ->).
      assert (H : match e with EStart _ => False | EProof _ _ _ => True | EDone x _ => awaited s <> Some x end).
      { destruct e; [exact (NS _ _ (or_introl eq_refl)) | exact Logic.I | congruence]. }
      destruct (other_event w s e s1 o1 K E1 H) as [(K1 & S1 & T1 & C1) A1].
      assert (AW1 : awaited s1 = None) by (unfold awaited in *; rewrite S1, C1; exact AW).
      destruct (IH s1 s' o2 K1 AW1 (no_start_tl _ _ NS) R2) as [A2 (K2 & S2 & T2 & C2)].
      rewrite acts_app, A1, A2. unfold same. repeat split; congruence.
  Qed.

  Lemma done_step : forall w s l n s' os, map fst (s_leechers s) = reg -> awaited s = Some l -> step w s (EDone l n) = Ok (s', os) ->
    exists s0, same s s0 /\
      (match s_state s with
       | PreSyncingPool => enter_state w s0 SyncingAudit
       | SyncingAudit => enter_state w (mkSvc (s_state s0) (T_of w) (s_sizes s0) (s_cur s0) (s_leechers s0)) SyncingPool
       | SyncingPool => enter_state w s0 SyncingConfig
       | SyncingConfig => enter_state w s0 SyncingOthers
       | SyncingOthers => sync_next_ledger w s0
       | Idle => Ok (s0, [])
       end) = Ok (s', os).
  Proof.
    intros w s l n s' os K AW E. cbn [NodeLeecher_Model.step] in E. destruct (get l (s_leechers s)) as [x|] eqn:G; [|discriminate E].
    exists (with_leecher s l (mkLe synced None n)). split.
    - unfold same. cbn [with_leecher s_leechers s_state s_till s_cur]. rewrite set_keys_same by congruence. repeat split; exact K || reflexivity.
    - unfold on_complete in E. rewrite validate_awaited in E. change (awaited (with_leecher s l (mkLe synced None n))) with (awaited s) in E.
      rewrite AW, Nat.eqb_refl in E. cbn [negb] in E. exact E.
  Qed.

  Definition rest (T : dict till) (l : nat) (r : list nat) (es : list (event * world)) : list act :=
    match until_done l es with None => [] | Some (_, es') => in_turn T r es' end.

  (** the service's state at the end: at rest again if the catch-up is complete *)
  Definition ended (s' : svc) (a : list act) : Prop := In Complete a -> at_rest s' reg.

  Lemma sync_next_eff : forall w s s' os nx, map fst (s_leechers s) = reg -> get_next_ledger w s (s_cur s) = Ok nx -> s_state s = SyncingOthers ->
    sync_next_ledger w s = Ok (s', os) ->
    match nx with
    | Some l => map fst (s_leechers s') = reg /\ s_state s' = SyncingOthers /\ s_till s' = s_till s /\ s_cur s' = Some l /\ acts os = [start_of (s_till s) l]
    | None => at_rest s' reg /\ acts os = [Complete]
    end.
  Proof.
    intros w s s' os nx K G ST E. unfold sync_next_ledger in E. rewrite G in E. cbn [bind] in E. destruct nx as [l|].
    - destruct (catchup_eff w (with_cur s (Some l)) l s' os K E) as (K' & S' & T' & C' & A'). cbn [with_cur s_state s_till s_cur] in *. repeat split; congruence.
    - injection E as <- <-. split; [unfold at_rest; cbn; auto | reflexivity].
  Qed.

  Lemma others_run : forall r a l es s s' os fr, map fst (s_leechers s) = reg -> s_state s = SyncingOthers -> s_cur s = Some l ->
    others reg fr = a ++ l :: r -> no_start es -> frozen_is fr es -> run s es = Ok (s', os) ->
    acts os = rest (s_till s) l r es /\ ended s' (acts os).
  Proof.
    induction r as [|l2 r IH]; intros a l es s s' os fr K ST C EO NS FR R.
    - assert (AW : awaited s = Some l) by (unfold awaited; rewrite ST; exact C).
      pose proof (wait l es s s' os K AW NS R) as W. unfold rest, ended. destruct (until_done l es) as [[w es']|]; [|destruct W as [-> _]; split; [reflexivity | intros []]].
      destruct W as (s1 & s2 & n & o2 & o3 & (K1 & S1 & T1 & C1) & E2 & R3 & A & I & pre & EE).
      assert (NA : l <> AUDIT_LEDGER_ID /\ l <> POOL_LEDGER_ID).
      { assert (IO : In l (others reg fr)) by (rewrite EO; apply in_or_app; right; left; reflexivity). apply filter_In in IO as [_ IO].
        apply negb_true_iff, orb_false_iff in IO as [IO _]. apply orb_false_iff in IO as [IO _]. apply orb_false_iff in IO as [I1 I2].
        split; apply Nat.eqb_neq; assumption. }
      assert (FW : w_frozen w = fr) by exact (FR l n w I (proj1 NA) (proj2 NA)).
      destruct (done_step w s1 l n s2 o2 K1 ltac:(unfold awaited; rewrite S1, ST, C1; exact C) E2) as (s0 & (K0 & S0 & T0 & C0) & E0).
      rewrite S1, ST in E0.
      assert (G : get_next_ledger w s0 (s_cur s0) = Ok None).
      { rewrite C0, C1, C. exact (next_after w s0 a l [] K0 ltac:(rewrite FW; exact EO)). }
      destruct (sync_next_eff w s0 s2 o2 None K0 G ltac:(congruence) E0) as [AR A2].
      assert (AW2 : awaited s2 = None) by (unfold awaited; rewrite (proj1 AR); reflexivity).
      destruct (idle_run es' s2 s' o3 (proj2 (proj2 AR)) AW2 ltac:(rewrite EE in NS; intros i0 w0 X; apply (NS i0 w0); apply in_or_app; right; right; exact X) R3) as [A3 (K3 & S3 & T3 & C3)].
      rewrite A, A2, A3. split; [reflexivity|]. intros _. destruct AR as (AR1 & AR2 & AR3). unfold at_rest. repeat split; congruence.
    - assert (AW : awaited s = Some l) by (unfold awaited; rewrite ST; exact C).
      pose proof (wait l es s s' os K AW NS R) as W. unfold rest, ended. destruct (until_done l es) as [[w es']|]; [|destruct W as [-> _]; split; [reflexivity | intros []]].
      destruct W as (s1 & s2 & n & o2 & o3 & (K1 & S1 & T1 & C1) & E2 & R3 & A & I & pre & EE).
      assert (NA : l <> AUDIT_LEDGER_ID /\ l <> POOL_LEDGER_ID).
      { assert (IO : In l (others reg fr)) by (rewrite EO; apply in_or_app; right; left; reflexivity). apply filter_In in IO as [_ IO].
        apply negb_true_iff, orb_false_iff in IO as [IO _]. apply orb_false_iff in IO as [IO _]. apply orb_false_iff in IO as [I1 I2].
        split; apply Nat.eqb_neq; assumption. }
      assert (FW : w_frozen w = fr) by exact (FR l n w I (proj1 NA) (proj2 NA)).
      destruct (done_step w s1 l n s2 o2 K1 ltac:(unfold awaited; rewrite S1, ST, C1; exact C) E2) as (s0 & (K0 & S0 & T0 & C0) & E0).
      rewrite S1, ST in E0.
      assert (G : get_next_ledger w s0 (s_cur s0) = Ok (Some l2)).
      { rewrite C0, C1, C. exact (next_after w s0 a l (l2 :: r) K0 ltac:(rewrite FW; exact EO)). }
      destruct (sync_next_eff w s0 s2 o2 (Some l2) K0 G ltac:(congruence) E0) as (K2 & S2 & T2 & C2 & A2).
      assert (NS' : no_start es') by (rewrite EE in NS; intros i0 w0 X; apply (NS i0 w0); apply in_or_app; right; right; exact X).
      assert (FR' : frozen_is fr es') by (rewrite EE in FR; intros i0 w0 x0 X; apply (FR i0 w0 x0); apply in_or_app; right; right; exact X).
      destruct (IH (a ++ [l]) l2 es' s2 s' o3 fr K2 S2 C2 ltac:(rewrite <- app_assoc; exact EO) NS' FR' R3) as [A3 EN].
      assert (TT : s_till s2 = s_till s) by congruence. rewrite A, A2, A3, TT, T0, T1. split; [reflexivity|].
      intros X. apply EN. destruct X as [X|X]; [unfold start_of in X; destruct (get l2 (s_till s)); discriminate X|]. rewrite A3, TT. exact X.
  Qed.

  (** entering a state that waits for one fixed ledger *)
  Lemma enter_fixed : forall w s x l s' os, map fst (s_leechers s) = reg -> In (x, l) [(SyncingAudit, AUDIT_LEDGER_ID); (SyncingPool, POOL_LEDGER_ID); (SyncingConfig, CONFIG_LEDGER_ID)] ->
    enter_state w s x = Ok (s', os) ->
    map fst (s_leechers s') = reg /\ s_state s' = x /\ s_till s' = s_till s /\ s_cur s' = s_cur s /\ acts os = [start_of (s_till s) l].
  Proof.
    intros w s x l s' os K I E.
    assert (E' : catchup_ledger w (with_state s x) l = Ok (s', os)).
    { destruct I as [I|[I|[I|[]]]]; injection I as <- <-; exact E. }
    destruct (catchup_eff w (with_state s x) l s' os K E') as (K' & S' & T' & C' & A'). auto.
  Qed.

  Lemma config_run : forall es s s' os fr, map fst (s_leechers s) = reg -> s_state s = SyncingConfig -> s_cur s = None ->
    no_start es -> frozen_is fr es -> run s es = Ok (s', os) ->
    acts os = rest (s_till s) CONFIG_LEDGER_ID (others reg fr) es /\ ended s' (acts os).
  Proof.
    intros es s s' os fr K ST C NS FR R.
    pose proof (wait CONFIG_LEDGER_ID es s s' os K ltac:(unfold awaited; rewrite ST; reflexivity) NS R) as W.
    unfold rest, ended. destruct (until_done CONFIG_LEDGER_ID es) as [[w es']|]; [|destruct W as [-> _]; split; [reflexivity | intros []]].
    destruct W as (s1 & s2 & n & o2 & o3 & (K1 & S1 & T1 & C1) & E2 & R3 & A & I & pre & EE).
    assert (FW : w_frozen w = fr) by exact (FR _ n w I ltac:(discriminate) ltac:(discriminate)).
    destruct (done_step w s1 CONFIG_LEDGER_ID n s2 o2 K1 ltac:(unfold awaited; rewrite S1, ST; reflexivity) E2) as (s0 & (K0 & S0 & T0 & C0) & E0).
    rewrite S1, ST in E0. cbn [enter_state] in E0.
    assert (NS' : no_start es') by (rewrite EE in NS; intros i0 w0 X; apply (NS i0 w0); apply in_or_app; right; right; exact X).
    assert (FR' : frozen_is fr es') by (rewrite EE in FR; intros i0 w0 x0 X; apply (FR i0 w0 x0); apply in_or_app; right; right; exact X).
    assert (G : get_next_ledger w (with_state s0 SyncingOthers) (s_cur (with_state s0 SyncingOthers)) = Ok (match others reg fr with [] => None | i :: _ => Some i end)).
    { cbn [with_state s_cur]. rewrite C0, C1, C, <- FW. exact (next_first w (with_state s0 SyncingOthers) K0). }
    pose proof (sync_next_eff w (with_state s0 SyncingOthers) s2 o2 _ K0 G eq_refl E0) as SE.
    destruct (others reg fr) as [|l r] eqn:EO.
    - destruct SE as [AR A2]. assert (AW2 : awaited s2 = None) by (unfold awaited; rewrite (proj1 AR); reflexivity).
      destruct (idle_run es' s2 s' o3 (proj2 (proj2 AR)) AW2 NS' R3) as [A3 (K3 & S3 & T3 & C3)].
      rewrite A, A2, A3. split; [reflexivity|]. intros _. destruct AR as (AR1 & AR2 & AR3). unfold at_rest. repeat split; congruence.
    - destruct SE as (K2 & S2 & T2 & C2 & A2). cbn [with_state s_till] in *.
      destruct (others_run r [] l es' s2 s' o3 fr K2 S2 C2 EO NS' FR' R3) as [A3 EN].
      assert (TT : s_till s2 = s_till s) by congruence. rewrite A, A2, A3, TT, T0, T1. split; [reflexivity|].
      intros X. apply EN. destruct X as [X|X]; [unfold start_of in X; destruct (get l (s_till s)); discriminate X|]. rewrite A3, TT. exact X.
  Qed.

  Lemma pool_run : forall es s s' os fr, map fst (s_leechers s) = reg -> s_state s = SyncingPool -> s_cur s = None ->
    no_start es -> frozen_is fr es -> run s es = Ok (s', os) ->
    acts os = rest (s_till s) POOL_LEDGER_ID (CONFIG_LEDGER_ID :: others reg fr) es /\ ended s' (acts os).
  Proof.
    intros es s s' os fr K ST C NS FR R.
    pose proof (wait POOL_LEDGER_ID es s s' os K ltac:(unfold awaited; rewrite ST; reflexivity) NS R) as W.
    unfold rest, ended. destruct (until_done POOL_LEDGER_ID es) as [[w es']|]; [|destruct W as [-> _]; split; [reflexivity | intros []]].
    destruct W as (s1 & s2 & n & o2 & o3 & (K1 & S1 & T1 & C1) & E2 & R3 & A & I & pre & EE).
    destruct (done_step w s1 POOL_LEDGER_ID n s2 o2 K1 ltac:(unfold awaited; rewrite S1, ST; reflexivity) E2) as (s0 & (K0 & S0 & T0 & C0) & E0).
    rewrite S1, ST in E0.
    destruct (enter_fixed w s0 SyncingConfig CONFIG_LEDGER_ID s2 o2 K0 ltac:(right; right; left; reflexivity) E0) as (K2 & S2 & T2 & C2 & A2).
    assert (NS' : no_start es') by (rewrite EE in NS; intros i0 w0 X; apply (NS i0 w0); apply in_or_app; right; right; exact X).
    assert (FR' : frozen_is fr es') by (rewrite EE in FR; intros i0 w0 x0 X; apply (FR i0 w0 x0); apply in_or_app; right; right; exact X).
    destruct (config_run es' s2 s' o3 fr K2 S2 ltac:(congruence) NS' FR' R3) as [A3 EN].
    assert (TT : s_till s2 = s_till s) by congruence. rewrite A, A2, A3, TT, T0, T1. split; [reflexivity|].
    intros X. apply EN. destruct X as [X|X]; [unfold start_of in X; destruct (get _ (s_till s)); discriminate X|]. rewrite A3, TT. exact X.
  Qed.

  Lemma audit_run : forall es s s' os fr, map fst (s_leechers s) = reg -> s_state s = SyncingAudit -> s_cur s = None ->
    no_start es -> frozen_is fr es -> run s es = Ok (s', os) ->
    acts os = (match until_done AUDIT_LEDGER_ID es with
               | None => []
               | Some (w, es') => in_turn (T_of w) ([POOL_LEDGER_ID; CONFIG_LEDGER_ID] ++ others reg fr) es'
               end) /\ ended s' (acts os).
  Proof.
    intros es s s' os fr K ST C NS FR R.
    pose proof (wait AUDIT_LEDGER_ID es s s' os K ltac:(unfold awaited; rewrite ST; reflexivity) NS R) as W.
    unfold ended. destruct (until_done AUDIT_LEDGER_ID es) as [[w es']|]; [|destruct W as [-> _]; split; [reflexivity | intros []]].
    destruct W as (s1 & s2 & n & o2 & o3 & (K1 & S1 & T1 & C1) & E2 & R3 & A & I & pre & EE).
    destruct (done_step w s1 AUDIT_LEDGER_ID n s2 o2 K1 ltac:(unfold awaited; rewrite S1, ST; reflexivity) E2) as (s0 & (K0 & S0 & T0 & C0) & E0).
    rewrite S1, ST in E0.
    destruct (enter_fixed w (mkSvc (s_state s0) (T_of w) (s_sizes s0) (s_cur s0) (s_leechers s0)) SyncingPool POOL_LEDGER_ID s2 o2 K0 ltac:(right; left; reflexivity) E0) as (K2 & S2 & T2 & C2 & A2).
    cbn [s_till s_cur] in *.
    assert (NS' : no_start es') by (rewrite EE in NS; intros i0 w0 X; apply (NS i0 w0); apply in_or_app; right; right; exact X).
    assert (FR' : frozen_is fr es') by (rewrite EE in FR; intros i0 w0 x0 X; apply (FR i0 w0 x0); apply in_or_app; right; right; exact X).
    destruct (pool_run es' s2 s' o3 fr K2 S2 ltac:(congruence) NS' FR' R3) as [A3 EN].
    rewrite A, A2, A3, T2. split; [reflexivity|].
    intros X. apply EN. destruct X as [X|X]; [unfold start_of in X; destruct (get _ (T_of w)); discriminate X|]. rewrite A3, T2. exact X.
  Qed.

  Theorem round_run : forall i w es s s' os fr, at_rest s reg -> no_start es -> frozen_is fr es -> run s ((EStart i, w) :: es) = Ok (s', os) ->
    acts os = round T_of reg fr i es /\ ended s' (acts os).
  Proof.
    intros i w es s s' os fr (AR1 & AR2 & AR3) NS FR R. destruct (run_cons _ _ _ _ _ _ R) as (s1 & o1 & o2 & E1 & R2 & ->).
    cbn [NodeLeecher_Model.step] in E1. unfold start in E1.
    set (s0 := mkSvc (s_state s) [] [] (s_cur s) (map (fun x => (fst x, mkLe not_synced None 0)) (s_leechers s))) in *.
    assert (K0 : map fst (s_leechers s0) = reg) by (unfold s0; cbn [s_leechers]; rewrite map_map; cbn [fst]; exact AR3).
    rewrite acts_app. destruct i.
    - cbn [enter_state] in E1. destruct (leecher_start_eff (with_state s0 PreSyncingPool) _ _ _ _ s1 o1 K0 E1) as (K1 & S1 & T1 & C1 & A1).
      pose proof (wait POOL_LEDGER_ID es s1 s' o2 K1 ltac:(unfold awaited; rewrite S1; reflexivity) NS R2) as W.
      unfold round, ended. rewrite A1. cbn [app]. destruct (until_done POOL_LEDGER_ID es) as [[w' es']|]; [|destruct W as [-> _]; split; [reflexivity | intros [X|[]]; discriminate X]].
      destruct W as (s2 & s3 & n & o3 & o4 & (K2 & S2 & T2 & C2) & E3 & R4 & A & I & pre & EE).
      destruct (done_step w' s2 POOL_LEDGER_ID n s3 o3 K2 ltac:(unfold awaited; rewrite S2, S1; reflexivity) E3) as (s4 & (K4 & S4 & T4 & C4) & E4).
      rewrite S2, S1 in E4. cbn [with_state s_state] in E4.
      destruct (enter_fixed w' s4 SyncingAudit AUDIT_LEDGER_ID s3 o3 K4 ltac:(left; reflexivity) E4) as (K3 & S3 & T3 & C3 & A3).
      assert (NS' : no_start es') by (rewrite EE in NS; intros i0 w0 X; apply (NS i0 w0); apply in_or_app; right; right; exact X).
      assert (FR' : frozen_is fr es') by (rewrite EE in FR; intros i0 w0 x0 X; apply (FR i0 w0 x0); apply in_or_app; right; right; exact X).
      assert (C3' : s_cur s3 = None) by (rewrite C3, C4, C2, C1; exact AR2).
      destruct (audit_run es' s3 s' o4 fr K3 S3 C3' NS' FR' R4) as [A4 EN].
      assert (TN : s_till s4 = []) by (rewrite T4, T2, T1; reflexivity).
      rewrite A, A3, TN. split.
      + unfold from_audit. rewrite A4. reflexivity.
      + intros [X|X]; [discriminate X|]. apply in_app_or in X as [[X|[]]|X]; [discriminate X|]. exact (EN X).
    - destruct (enter_fixed w s0 SyncingAudit AUDIT_LEDGER_ID s1 o1 K0 ltac:(left; reflexivity) E1) as (K1 & S1 & T1 & C1 & A1).
      destruct (audit_run es s1 s' o2 fr K1 S1 ltac:(rewrite C1; exact AR2) NS FR R2) as [A2 EN].
      rewrite A1. split.
      + unfold round, from_audit. rewrite A2. reflexivity.
      + intros [X|X]; [discriminate X|]. exact (EN X).
  Qed.
End Proofs.
