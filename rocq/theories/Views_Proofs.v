(** Proofs about several views of a pool. *)
From Coq Require Import List Arith Bool Lia Permutation.
From Verif Require Import Quorum_Model Quorum_Props NewView_Model NewView_Props Tpc_Model Tpc_Proofs Tpc_Proofs2 Tpc_Props Views_Model Views_Spec.
From Verif Require Dict ViewChange_Model.
Import ListNotations.

(** ** Where the batches of a view come from *)
Section Given.
  Variables (cfg : config) (evs : list event) (v : nat).

  Definition given (outs : list output) (pp : pre_prepare) : Prop :=
    (exists x ck, In (EPrePrepare pp x ck) evs) \/
    (exists pp0 ck, In (EOldPrePrepare pp0 ck) evs /\ pp = reissue v pp0) \/
    In (OPrePrepare pp) outs.

  Lemma given_mono outs o pp : given outs pp -> given (outs ++ o) pp.
  Proof. intros [X|[X|X]]; [left; exact X|right; left; exact X|right; right; apply in_or_app; auto]. Qed.

  Record G (outs : list output) (st : replica) : Prop := {
    g_view : r_view st = v;
    g_high : r_high st <= r_low st + log_size cfg;
    g_pps : forall k pp, In (k, pp) (r_sent st) \/ In (k, pp) (r_pps st) -> given outs pp /\ pp_key pp = k /\ pp_view pp = v;
    g_pre : forall b, In b (r_preprepared st) -> exists pp, given outs pp /\ b = preprepare_to_batch_id pp /\ pp_view pp = v;
    g_prep : forall p, In (OPrepare p) outs -> exists pp, given outs pp /\ p = prepare_of pp;
    g_comm : forall c pp, In (OCommit c pp) outs ->
      given outs pp /\ pp_view pp = v /\ pp_seq pp <= r_low st + log_size cfg;
    g_ord : forall pp, In (OOrdered pp) outs -> given outs pp;
    g_prepared : forall b, In b (r_prepared st) -> exists c pp, In (OCommit c pp) outs /\ b = preprepare_to_batch_id pp }.

  Lemma get_in {A} k (d : dict A) x : get k d = Some x -> In (k, x) d.
  Proof.
    induction d as [|[k' y] d IH]; simpl; [discriminate|]. destruct (key_eqb_spec k k') as [->|N]; [|auto].
    intros E. injection E as ->. auto.
  Qed.
  Lemma got outs st k pp : G outs st -> get_preprepare st k = Some pp -> given outs pp /\ pp_key pp = k /\ pp_view pp = v.
  Proof.
    intros Gg E. apply (g_pps _ _ Gg). unfold get_preprepare in E. destruct (get k (r_sent st)) eqn:E1.
    - left. apply get_in. congruence.
    - right. apply get_in. exact E.
  Qed.

  (** changes which leave the batches alone *)
  Lemma G_same outs o st st' : G outs st -> r_view st' = r_view st -> r_low st' = r_low st -> r_high st' = r_high st ->
    r_sent st' = r_sent st -> r_pps st' = r_pps st -> r_preprepared st' = r_preprepared st -> r_prepared st' = r_prepared st ->
    (forall p, In (OPrepare p) o -> exists pp, given outs pp /\ p = prepare_of pp) ->
    (forall c pp, ~ In (OCommit c pp) o) -> (forall pp, In (OOrdered pp) o -> given outs pp) -> G (outs ++ o) st'.
  Proof.
    intros [V Hi P Pr Pe C O Pd] E1 E2 E3 E4 E5 E6 E7 N1 N2 N3. constructor; rewrite ?E1, ?E2, ?E3, ?E4, ?E5, ?E6, ?E7; auto.
    - intros k pp X. destruct (P k pp X) as (X1 & X2). auto using given_mono.
    - intros b X. destruct (Pr b X) as (pp & X1 & X2). exists pp. auto using given_mono.
    - intros p X. apply in_app_or in X as [X|X]; [destruct (Pe p X) as (pp & X1 & X2)|destruct (N1 p X) as (pp & X1 & X2)]; exists pp; auto using given_mono.
    - intros c pp X. apply in_app_or in X as [X|X]; [|destruct (N2 _ _ X)]. destruct (C c pp X) as (X1 & X2). auto using given_mono.
    - intros pp X. apply in_app_or in X as [X|X]; auto using given_mono.
    - intros b X. destruct (Pd b X) as (c & pp & X1 & X2). exists c, pp. split; [apply in_or_app; auto|exact X2].
  Qed.

  (** a new batch *)
  Lemma G_add outs o st st' pp : G outs st -> r_view st' = r_view st -> r_low st' = r_low st -> r_high st' = r_high st ->
    pp_view pp = v -> given (outs ++ o) pp ->
    (forall k p, In (k, p) (r_sent st') \/ In (k, p) (r_pps st') -> (k = pp_key pp /\ p = pp) \/ In (k, p) (r_sent st) \/ In (k, p) (r_pps st)) ->
    (forall b, In b (r_preprepared st') -> b = preprepare_to_batch_id pp \/ In b (r_preprepared st)) ->
    r_prepared st' = r_prepared st -> (o = [] \/ o = [OPrePrepare pp]) -> G (outs ++ o) st'.
  Proof.
    intros [V Hi P Pr Pe C O Pd] E1 E2 E3 Vp Gv N1 N2 E4 N3.
    assert (T : forall z, (forall p, z <> OPrePrepare p) -> In z (outs ++ o) -> In z outs).
    { intros z Z X. apply in_app_or in X as [X|X]; [exact X|]. destruct N3 as [-> | ->]; [destruct X|]. destruct X as [X|[]]. destruct (Z pp); auto. }
    constructor; rewrite ?E1, ?E2, ?E3, ?E4; auto.
    - intros k p X. destruct (N1 k p X) as [[-> ->]|X']; [auto|]. destruct (P k p X') as (X1 & X2). auto using given_mono.
    - intros b X. destruct (N2 b X) as [-> |X']; [exists pp; auto|]. destruct (Pr b X') as (p & X1 & X2). exists p. auto using given_mono.
    - intros p X. apply T in X; [|discriminate]. destruct (Pe p X) as (p' & X1 & X2). exists p'. auto using given_mono.
    - intros c p X. apply T in X; [|discriminate]. destruct (C c p X) as (X1 & X2). auto using given_mono.
    - intros p X. apply T in X; [|discriminate]. auto using given_mono.
    - intros b X. destruct (Pd b X) as (c & p & X1 & X2). exists c, p. split; [apply in_or_app; auto|exact X2].
  Qed.

  Lemma preprepare_in st pp b : In b (r_preprepared (raise_last_pp (preprepare_batch st pp) (pp_seq pp))) ->
    b = preprepare_to_batch_id pp \/ In b (r_preprepared st).
  Proof.
    unfold raise_last_pp, preprepare_batch. destruct (existsb _ _); simpl; [auto|]. rewrite in_app_iff. simpl. intuition.
  Qed.
  Lemma raise_high st pp : r_high (raise_last_pp (preprepare_batch st pp) (pp_seq pp)) = r_high st.
  Proof. unfold raise_last_pp, preprepare_batch. destruct (existsb _ _); reflexivity. Qed.

  Lemma micro_G outs st st' o : G outs st -> micro cfg evs st st' o -> G (outs ++ o) st'.
  Proof.
    intros Gg M. destruct M as [w|w|s|p x pp W Np Nv Gp Mt Ie|pp W Np Gp Nv|c x W HP Nv Bl Ie|k pp W Gp Qm Nv
      |k pp Gp Qm Al Pr|pp x ck Np P Sc C Ap|pp x ck Np P Sc C Ap|tm d s t a Cs|s].
    - apply (G_same outs [] st _ Gg); auto; simpl; tauto.
    - apply (G_same outs [] st _ Gg); auto; simpl; tauto.
    - apply (G_same outs [] st _ Gg); auto; simpl; tauto.
    - apply (G_same outs [] st _ Gg); auto; simpl; tauto.
    - apply (G_same outs _ st _ Gg); auto.
      + intros p [X|[]]. injection X as <-. exists pp. split; [|reflexivity]. apply (g_pps _ _ Gg (pp_key pp)). right. apply get_in, Gp.
      + intros c p [X|[]]; discriminate.
      + intros p [X|[]]; discriminate.
    - apply (G_same outs [] st _ Gg); auto; simpl; tauto.
    - destruct (got outs st k pp Gg Gp) as (P1 & P2 & P3). destruct W as [W1 [W2 W3]]. pose proof (g_high _ _ Gg) as Hi.
      assert (Es : pp_seq pp = snd k) by (rewrite <- P2; reflexivity).
      destruct Gg as [V Hi' P Pr Pe C O Pd].
      set (st' := set_commits _ _).
      assert (F : r_view st' = r_view st /\ r_low st' = r_low st /\ r_high st' = r_high st /\ r_sent st' = r_sent st /\
                  r_pps st' = r_pps st /\ r_preprepared st' = r_preprepared st /\
                  (forall b, In b (r_prepared st') -> b = preprepare_to_batch_id pp \/ In b (r_prepared st))).
      { unfold st', prepare_batch. destruct (existsb _ _); simpl; repeat (split; [reflexivity|]); intros b; [auto|].
        rewrite in_app_iff. simpl. intuition. }
      clearbody st'. destruct F as (F1 & F2 & F3 & F4 & F5 & F6 & F7).
      constructor; rewrite ?F1, ?F2, ?F3, ?F4, ?F5, ?F6; auto.
      + intros k' p X. destruct (P k' p X) as (X1 & X2). auto using given_mono.
      + intros b X. destruct (Pr b X) as (p & X1 & X2). exists p. auto using given_mono.
      + intros p X. apply in_app_or in X as [X|[X|[]]]; [|discriminate]. destruct (Pe p X) as (p' & X1 & X2). exists p'. auto using given_mono.
      + intros c p X. apply in_app_or in X as [X|[X|[]]].
        * destruct (C c p X) as (X1 & X2). auto using given_mono.
        * injection X as <- <-. repeat split; auto using given_mono. lia.
      + intros p X. apply in_app_or in X as [X|[X|[]]]; [|discriminate]. auto using given_mono.
      + intros b X. destruct (F7 b X) as [-> |X'].
        * eexists. exists pp. split; [apply in_or_app; right; left; reflexivity|reflexivity].
        * destruct (Pd b X') as (c & p & X1 & X2). exists c, p. split; [apply in_or_app; auto|exact X2].
    - destruct (got outs st k pp Gg Gp) as (P1 & P2 & P3). unfold order_3pc_key. rewrite Gp. simpl.
      apply (G_same outs _ st _ Gg); auto.
      + intros p [X|[]]; discriminate.
      + intros c p [X|[]]; discriminate.
      + intros p [X|[]]. injection X as <-. exact P1.
    - destruct (processed_window _ _ P) as [W1 _]. simpl in W1. pose proof (g_view _ _ Gg) as V.
      destruct (raise_fields (set_pps st (put (pp_key pp) pp (r_pps st))) pp)
        as (F1 & F2 & F3 & F4 & F5 & F6 & F7 & F8 & F9 & F10 & F11).
      apply (G_add outs [] st _ pp Gg); auto.
      + rewrite raise_high. reflexivity.
      + congruence.
      + destruct Sc as [Sc|(_ & pp0 & Sc & E)]; [left; eauto|]. right. left. exists pp0, ck. rewrite <- V. auto.
      + intros k p. rewrite F5, F6. simpl. intros [X|X]; [auto|]. apply in_put in X as [[-> ->]|X]; auto.
      + intros b X. apply preprepare_in in X. exact X.
    - destruct (processed_window _ _ P) as [W1 _]. simpl in W1. pose proof (g_view _ _ Gg) as V.
      unfold add_to_sent_pre_prepares.
      destruct (raise_fields (set_sent st (put (pp_key pp) pp (r_sent st))) pp)
        as (F1 & F2 & F3 & F4 & F5 & F6 & F7 & F8 & F9 & F10 & F11).
      apply (G_add outs [] st _ pp Gg); auto.
      + rewrite raise_high. reflexivity.
      + congruence.
      + destruct Sc as [Sc|(_ & pp0 & Sc & E)]; [left; eauto|]. right. left. exists pp0, ck. rewrite <- V. auto.
      + intros k p. rewrite F5, F6. simpl. intros [X|X]; [|auto]. apply in_put in X as [[-> ->]|X]; auto.
      + intros b X. apply preprepare_in in X. exact X.
    - unfold send_3pc_batch. rewrite Cs. cbn [fst snd].
      set (pp := {| pp_view := r_view st; pp_seq := S (r_last_pp st); pp_time := tm; pp_dig := d;
                   pp_orig_view := r_view st; pp_state_root := s; pp_txn_root := t; pp_audit_root := a |}) in *.
      pose proof (g_view _ _ Gg) as V. unfold add_to_sent_pre_prepares.
      destruct (raise_fields (set_sent st (put (pp_key pp) pp (r_sent st))) pp)
        as (F1 & F2 & F3 & F4 & F5 & F6 & F7 & F8 & F9 & F10 & F11).
      apply (G_add outs _ st _ pp Gg); auto.
      + rewrite raise_high. reflexivity.
      + right. right. apply in_or_app. right. left. reflexivity.
      + intros k p. rewrite F5, F6. simpl. intros [X|X]; [|auto]. apply in_put in X as [[-> ->]|X]; auto.
      + intros b X. apply preprepare_in in X. exact X.
    - rewrite app_nil_r. unfold checkpoint_stabilized.
      destruct ((snd (r_last_ordered st) <? s) || (s <? r_low st)) eqn:Z; [exact Gg|].
      apply orb_false_iff in Z as [_ Z]. apply Nat.ltb_ge in Z.
      destruct Gg as [V Hi' P Pr Pe C O Pd]. constructor; simpl; auto.
      + intros k p [X|X]; apply filter_In in X as [X _]; auto.
      + intros b X. apply filter_In in X as [X _]. auto.
      + intros c p X. destruct (C c p X) as (X1 & X2 & X3). repeat split; auto. lia.
      + intros b X. apply filter_In in X as [X _]. auto.
  Qed.
End Given.

Lemma run_G cfg st evs : view_start st -> r_prepared st = [] -> r_preprepared st = [] ->
  r_high st <= r_low st + log_size cfg -> G cfg evs (r_view st) (outputs cfg st evs) (fst (run cfg st evs)).
Proof.
  intros Vs E1 E2 Hi.
  apply (micros_ind_outs cfg evs (G cfg evs (r_view st))) with (st := st) (outs := []).
  - intros o s s' o' X M. eapply micro_G; eauto.
  - exact (start_micros cfg evs st Vs).
  - destruct Vs as [A B C D E F Go K L]. constructor; rewrite ?A, ?B, ?E1, ?E2; simpl; auto; try tauto.
Qed.

(** the stable checkpoint does not go back within a view *)
Lemma micro_low cfg evs st st' o : micro cfg evs st st' o -> r_low st <= r_low st'.
Proof.
  intros M. destruct M; try (simpl; lia).
  - unfold prepare_batch. destruct (existsb _ _); simpl; lia.
  - unfold order_3pc_key. destruct (get_preprepare st k); simpl; lia.
  - unfold raise_last_pp, preprepare_batch. destruct (existsb _ _); simpl; lia.
  - unfold add_to_sent_pre_prepares, raise_last_pp, preprepare_batch. destruct (existsb _ _); simpl; lia.
  - unfold send_3pc_batch, add_to_sent_pre_prepares, raise_last_pp, preprepare_batch.
    rewrite H. cbn [fst]. destruct (existsb _ _); simpl; lia.
  - destruct (stable_cases cfg st s) as [->|[L L2]]; [lia|]. destruct (stable_fields cfg st s L L2) as (_ & -> & _). exact L2.
Qed.
Lemma micros_low cfg evs st st' o : micros cfg evs st st' o -> r_low st <= r_low st'.
Proof. induction 1 as [|s s1 s2 o1 o2 M1 M2 IH]; [lia|]. pose proof (micro_low _ _ _ _ _ M1). lia. Qed.
Lemma run_low cfg st evs : view_start st -> r_low st <= r_low (fst (run cfg st evs)).
Proof. intros Vs. exact (micros_low _ _ _ _ _ (start_micros cfg evs st Vs)). Qed.

(** ** What a node remembers *)
Section Memory.
  Import ViewChange_Model.

  Lemma add_prepared_get bids : forall d t c, Dict.get t (add_prepared d bids) = Some c ->
    (In c bids /\ pp_seq_no c = t) \/ Dict.get t d = Some c.
  Proof.
    induction bids as [|b bids IH]; intros d t c; simpl; [auto|]. intros E.
    destruct (IH _ _ _ E) as [[X1 X2]|X]; [auto|]. rewrite Dict.get_set in X.
    destruct (Nat.eqb_spec t (pp_seq_no b)) as [->|N]; [|auto]. injection X as ->. auto.
  Qed.
  Lemma add_prepared_some bids : forall d t, Dict.get t d <> None -> Dict.get t (add_prepared d bids) <> None.
  Proof.
    induction bids as [|b bids IH]; intros d t; simpl; [auto|]. intros E. apply IH. rewrite Dict.get_set.
    destruct (t =? pp_seq_no b); [discriminate|exact E].
  Qed.
  Lemma add_prepared_new bids : forall d t, (exists b, In b bids /\ pp_seq_no b = t) ->
    exists c, Dict.get t (add_prepared d bids) = Some c /\ In c bids /\ pp_seq_no c = t.
  Proof.
    induction bids as [|b' bids IH]; intros d t (b & X & E); [contradiction|]. simpl.
    destruct (in_dec Nat.eq_dec t (map pp_seq_no bids)) as [I|N].
    - apply in_map_iff in I as (c & Ec & I). destruct (IH (Dict.set (pp_seq_no b') b' d) t) as (r & R1 & R2 & R3); eauto 6.
    - destruct X as [->|X]; [|destruct N; rewrite <- E; apply in_map, X].
      destruct (Dict.get t (add_prepared (Dict.set (pp_seq_no b) b d) bids)) as [r|] eqn:Gt.
      + destruct (add_prepared_get _ _ _ _ Gt) as [[X1 X2]|X]; [destruct N; rewrite <- X2; apply in_map, X1|].
        rewrite Dict.get_set, E, Nat.eqb_refl in X. injection X as <-. eauto.
      + exfalso. refine (add_prepared_some bids _ t _ Gt). rewrite Dict.get_set, E, Nat.eqb_refl. discriminate.
  Qed.
  Lemma clear_old_get {V} stable (d : Dict.dict V) t : stable < t -> Dict.get t (clear_old stable d) = Dict.get t d.
  Proof.
    intros L. unfold clear_old. rewrite (Dict.get_filter (fun k => negb (k <=? stable))).
    destruct (Nat.leb_spec t stable); [lia|reflexivity].
  Qed.

  Lemma add_preprepared_in bids : forall d c, In c (flat_map snd (add_preprepared d bids)) -> In c bids \/ In c (flat_map snd d).
  Proof.
    induction bids as [|b bids IH]; intros d c; simpl; [auto|]. intros E. destruct (IH _ _ E) as [X|X]; [auto|].
    apply in_flat_map in X as ([k l] & X1 & X2). simpl in X2. apply Dict.in_set in X1 as [[-> ->]|X1].
    - apply in_app_or in X2 as [X2|[X2|[]]]; [|auto]. apply filter_In in X2 as [X2 _]. right.
      unfold Dict.get_or in X2. destruct (Dict.get (pp_seq_no b) d) as [l|] eqn:Gt; [|destruct X2].
      apply in_flat_map. exists (pp_seq_no b, l). split; [apply Dict.get_in, Gt|exact X2].
    - right. apply in_flat_map. exists (k, l). auto.
  Qed.
  Lemma clear_old_in {V} stable (d : Dict.dict (list V)) c : In c (flat_map snd (clear_old stable d)) -> In c (flat_map snd d).
  Proof.
    intros X. apply in_flat_map in X as (e & X1 & X2). apply filter_In in X1 as [X1 _]. apply in_flat_map. eauto.
  Qed.
End Memory.

(** ** Survival of committed batches *)
Section Survives.
  Variables (S : system) (s : nat) (ordered : nat -> batch_id).
  Hypotheses (ok : sys_ok S) (Li : only_listed S) (La : last_is_highest S).
  Hypothesis Com : forall t, 1 <= t <= s -> pp_seq_no (ordered t) = t /\ committed S (ordered t).
  Hypothesis Mono : forall t t', 1 <= t <= t' -> t' <= s -> view_no (ordered t) <= view_no (ordered t').

  Let n := length (all_nodes S).
  Let cfg x v := s_cfg (stays S x v).
  Let st x v := s_start (stays S x v).
  Let evs x v := s_events (stays S x v).

  Lemma stay_G x v : correct S x -> v < views S -> G (cfg x v) (evs x v) v (sent S x v) (last_state S x v).
  Proof.
    intros Cx Vv. destruct (so_start S ok x v Cx Vv) as (_ & _ & El & Vs & Ev & E1 & E2 & Eh & _).
    pose proof (run_G (cfg x v) (st x v) (evs x v) Vs E1 E2) as X. unfold st in X at 3. rewrite Ev in X. apply X.
    unfold cfg, st. rewrite Eh, El. lia.
  Qed.
  Lemma stay_H x v : correct S x -> v < views S ->
    H (cfg x v) (evs x v) v (r_prev_cert (st x v)) (sent S x v) (last_state S x v).
  Proof.
    intros Cx Vv. destruct (so_start S ok x v Cx Vv) as (_ & _ & _ & Vs & Ev & _ & _ & _ & W).
    destruct (run_origin (cfg x v) (evs x v) (st x v) Vs (well_formed_wf _ _ _ W)) as (_ & _ & Hh & _).
    unfold st in Hh at 1. rewrite Ev in Hh. exact Hh.
  Qed.
  Lemma stay_log x v : correct S x -> v < views S -> log_size (cfg x v) = log S.
  Proof. intros Cx Vv. apply (so_start S ok x v Cx Vv). Qed.
  Lemma low_mono x u v : correct S x -> u <= v -> v < views S -> r_low (last_state S x u) <= r_low (last_state S x v).
  Proof.
    intros Cx Le. induction Le as [|v Le IH]; [lia|]. intros Vv. specialize (IH ltac:(lia)).
    pose proof (so_low S ok x v Cx Vv) as L1. simpl in L1.
    destruct (so_start S ok x (Datatypes.S v) Cx Vv) as (_ & _ & _ & Vs & _).
    assert (L2 : r_low (s_start (stays S x (Datatypes.S v))) <= r_low (last_state S x (Datatypes.S v)))
      by exact (run_low (cfg x (Datatypes.S v)) _ (evs x (Datatypes.S v)) Vs). lia.
  Qed.

  (** what a node handles in view [w] at place [t] is the committed batch *)
  Definition P (t w : nat) : Prop := forall x pp, correct S x -> given (evs x w) w (sent S x w) pp -> pp_seq pp = t -> is_batch pp (ordered t).

  (** one entry for a place *)
  Lemma prepared_one x v b b' : correct S x -> v < views S -> In b (r_prepared (last_state S x v)) ->
    In b' (r_prepared (last_state S x v)) -> pp_seq_no b = pp_seq_no b' -> b = b'.
  Proof.
    intros Cx Vv X X' E. pose proof (stay_G x v Cx Vv) as Gg. pose proof (stay_H x v Cx Vv) as Hh.
    destruct (g_prepared _ _ _ _ _ Gg b X) as (c & pp & Y & ->). destruct (g_prepared _ _ _ _ _ Gg b' X') as (c' & pp' & Y' & ->).
    destruct (g_comm _ _ _ _ _ Gg c pp Y) as (_ & V & _). destruct (g_comm _ _ _ _ _ Gg c' pp' Y') as (_ & V' & _).
    destruct (h_comm _ _ _ _ _ _ Hh c pp Y) as (K & _). destruct (h_comm _ _ _ _ _ _ Hh c' pp' Y') as (K' & _).
    destruct (h_comm1 _ _ _ _ _ _ Hh c pp c' pp' Y Y') as [_ ->]; [|reflexivity].
    rewrite K, K'. unfold pp_key. simpl in E. congruence.
  Qed.

  Lemma remembers t y w : 1 <= t <= s -> correct S y -> view_no (ordered t) < w -> w <= views S ->
    (forall u, view_no (ordered t) < u < w -> P t u) ->
    (exists c pp, In (OCommit c pp) (sent S y (view_no (ordered t))) /\ is_batch pp (ordered t)) ->
    t <= r_low (last_state S y (w - 1)) \/
    exists c, Dict.get t (fst (memory S y w)) = Some c /\ same_batch c (ordered t) /\ view_no (ordered t) <= view_no c.
  Proof.
    intros Ht Cy. induction w as [|u IH]; [lia|]. intros Lv Lw Hp Hc. destruct (Com t Ht) as [Es _].
    simpl. rewrite Nat.sub_0_r. destruct (le_lt_dec t (r_low (last_state S y u))) as [L|L]; [auto|]. right.
    pose proof (stay_G y u Cy Lw) as Gg.
    destruct (Nat.eq_dec u (view_no (ordered t))) as [E|N].
    - destruct Hc as (c & pp & X & (B1 & B2 & B3)). rewrite <- E in X.
      destruct (so_start S ok y u Cy Lw) as (_ & _ & _ & Vs & _).
      destruct (C42_committed_is_reported _ _ _ c pp Vs X) as [Y|Y]; [|fold (last_state S y u) in Y; lia]. fold (last_state S y u) in Y.
      destruct (add_prepared_new (r_prepared (last_state S y u))
        (ViewChange_Model.clear_old (r_low (last_state S y u)) (fst (memory S y u))) t) as (b & Gt & Ib & Eb).
      { exists (preprepare_to_batch_id pp). split; [exact Y|simpl; congruence]. }
      assert (b = preprepare_to_batch_id pp) as ->.
      { apply (prepared_one y u); auto. simpl. congruence. }
      exists (preprepare_to_batch_id pp). split; [exact Gt|]. split; [unfold same_batch; simpl; auto|].
      simpl. destruct (g_comm _ _ _ _ _ Gg c pp X) as (_ & V & _). lia.
    - destruct IH as [L'|(c & Gc & Sb & Vc)]; try lia; auto.
      { intros u' U. apply Hp. lia. }
      { exfalso. pose proof (low_mono y (u - 1) u Cy ltac:(lia) Lw). lia. }
      destruct (Dict.get t (ViewChange_Model.add_prepared (ViewChange_Model.clear_old (r_low (last_state S y u)) (fst (memory S y u)))
                 (r_prepared (last_state S y u)))) as [b|] eqn:Gt.
      2:{ exfalso. refine (add_prepared_some (r_prepared (last_state S y u)) _ t _ Gt). rewrite clear_old_get by exact L. congruence. }
      exists b. split; [reflexivity|]. destruct (add_prepared_get _ _ _ _ Gt) as [[X1 X2]|X].
      + destruct (g_prepared _ _ _ _ _ Gg b X1) as (c' & pp & Y & ->). destruct (g_comm _ _ _ _ _ Gg c' pp Y) as (Gi & V & _).
        simpl in X2. destruct (Hp u ltac:(lia) y pp Cy Gi X2) as (B1 & B2 & B3). split; [unfold same_batch; simpl; auto|]. simpl. lia.
      + rewrite clear_old_get in X by exact L. assert (b = c) as -> by congruence. auto.
  Qed.

  (** what a node remembers as pre-prepared was handled in the view that the entry names *)
  Lemma remembered_pre y c : forall w, correct S y -> w <= views S -> In c (flat_map snd (snd (memory S y w))) ->
    view_no c < w /\ exists pp, given (evs y (view_no c)) (view_no c) (sent S y (view_no c)) pp /\ c = preprepare_to_batch_id pp.
  Proof.
    intros w Cy. induction w as [|u IH]; intros Lw X; [destruct X|]. simpl in X.
    apply add_preprepared_in in X as [X|X].
    - destruct (g_pre _ _ _ _ _ (stay_G y u Cy Lw) c X) as (pp & Gi & -> & V). simpl. rewrite V. split; [lia|]. exists pp. auto.
    - apply clear_old_in in X. destruct (IH ltac:(lia) X) as [L Y]. split; [lia|exact Y].
  Qed.

  (** the ViewChange messages for view [w] show every committed batch *)
  Lemma may_be t w l : 1 <= t <= s -> view_no (ordered t) < w -> w < views S ->
    (forall u, view_no (ordered t) < u < w -> P t u) ->
    (forall y vc, In (y, vc) l -> correct S y -> vc = view_change_of S y w) -> incl (map fst l) (all_nodes S) ->
    may_be_ordered (all_nodes S) (faulty_nodes S) l (ordered t).
  Proof.
    intros Ht Lv Lw Hp Hl Il. destruct (Com t Ht) as [Es (_ & cs & M & K & Hc)].
    exists cs. split; [exact M|]. split; [exact K|]. split.
    - intros x vc X Nf I St. rewrite Es in St.
      assert (Cx : correct S x) by (split; [apply M, X|exact Nf]).
      rewrite (Hl x vc I Cx) in St |- *. simpl in St.
      destruct (remembers t x w Ht Cx Lv ltac:(lia) Hp (Hc x X Nf)) as [L|(c & Gc & Sb & Vc)]; [lia|].
      exists c. split; [|auto]. simpl. apply (Permutation_in _ (Permutation_sym (sorted_perm _))).
      apply Dict.get_in in Gc. apply (in_map snd) in Gc. exact Gc.
    - intros x vc c Nf I X Ec V.
      assert (Cx : correct S x) by (split; [apply Il; apply (in_map fst) in I; exact I|exact Nf]).
      rewrite (Hl x vc I Cx) in X. simpl in X. apply (Permutation_in _ (sorted_perm _)) in X.
      destruct (remembered_pre x c w Cx ltac:(lia) X) as (L & pp & Gi & E).
      assert (Eq : pp_seq pp = t) by (rewrite E in Ec; simpl in Ec; congruence).
      destruct (Hp (view_no c) ltac:(lia) x pp Cx Gi Eq) as (B1 & B2 & B3). rewrite E. unfold same_batch. simpl. auto.
  Qed.

  Lemma accepted_valid x w a : correct S x -> w < views S -> s_new_view (stays S x w) = Some a ->
    calc_checkpoint (Quorums n) (map snd (nv_vcs a)) = Some (nv_cp a) /\
    calc_batches (Quorums n) (log S) (nv_cp a) (map snd (nv_vcs a)) = Some (nv_batches a).
  Proof.
    intros Cx Lw E. destruct (so_new_view S ok x w a Cx Lw E) as (_ & _ & _ & _ & V & _). unfold new_view_valid in V. fold n in V.
    destruct (calc_checkpoint (Quorums n) (map snd (nv_vcs a))) as [c|]; [|discriminate].
    destruct (cp_eqb c (nv_cp a)) eqn:Ec; [|discriminate]. apply cp_eqb_eq in Ec as ->. simpl in V.
    destruct (calc_batches (Quorums n) (log S) (nv_cp a) (map snd (nv_vcs a))) as [bs|]; [|discriminate].
    apply bids_eqb_eq in V as ->. auto.
  Qed.

  Lemma quorum_pos : 1 <= strong (Quorums n).
  Proof. destruct (so_nodes S ok) as [_ N]. pose proof (C17_max_failures (length (all_nodes S)) N) as [X _]. unfold n. simpl. lia. Qed.

  (** an accepted NewView lists the committed batches above its checkpoint *)
  Lemma listed_in x w a t : correct S x -> w < views S -> s_new_view (stays S x w) = Some a ->
    1 <= t <= s -> view_no (ordered t) < w -> cp_end (nv_cp a) < t ->
    (forall t' u, 1 <= t' <= t -> view_no (ordered t') < u < w -> P t' u) ->
    exists b, In b (nv_batches a) /\ pp_seq_no b = t /\ same_batch b (ordered t) /\
      forall c, In c (nv_batches a) -> pp_seq_no c = t -> c = b.
  Proof.
    intros Cx Lw Ea Ht Lv Lc Hp.
    destruct (so_new_view S ok x w a Cx Lw Ea) as (W0 & Dv & Iv & Hv & _ & _).
    destruct (accepted_valid x w a Cx Lw Ea) as [Ecp Ebs]. destruct (so_nodes S ok) as [Dn N1].
    destruct (C21_ordered_batches_survive_partial Nat.eq_dec (all_nodes S) (faulty_nodes S) (nv_vcs a) Dn N1 (so_faulty S ok) Dv Iv
      (log S) (nv_cp a) (nv_batches a) t ordered) as (b & B1 & B2 & B3 & _ & B4); auto.
    - intros t' T. assert (Ht' : 1 <= t' <= s) by lia. destruct (Com t' Ht') as [Es' _]. split; [exact Es'|].
      pose proof (Mono t' t ltac:(lia) ltac:(lia)).
      apply (may_be t' w); auto; try lia. intros u U. apply Hp; lia.
    - split; [exact Lc|].
      destruct (C23_checkpoint node (Quorums n) (nv_vcs a) Dv quorum_pos) as [C23 _].
      destruct (C23 _ Ecp) as [[(names & Nd & Ln & Hn) _] _].
      destruct (Com t Ht) as [Es (_ & cs & M & K & Hc)].
      destruct (honest_witness Nat.eq_dec (all_nodes S) (faulty_nodes S) (nv_vcs a) Dn N1 (so_faulty S ok) Iv names _ cs M K Nd Ln Hn)
        as (z & vc & Z1 & Z2 & Z3 & Z4).
      assert (Cz : correct S z) by (split; [apply M, Z1|exact Z2]).
      rewrite (Hv z vc Z3 Cz) in Z4. simpl in Z4.
      destruct (Hc z Z1 Z2) as (c & pp & X & B1 & _).
      destruct (g_comm _ _ _ _ _ (stay_G z (view_no (ordered t)) Cz ltac:(lia)) c pp X) as (_ & _ & B).
      rewrite stay_log in B; auto; [|lia].
      pose proof (low_mono z (view_no (ordered t)) (w - 1) Cz ltac:(lia) ltac:(lia)). lia.
    - exists b. auto.
  Qed.

  Lemma survives_P : forall w t, 1 <= t <= s -> view_no (ordered t) < w -> w < views S -> P t w.
  Proof.
    induction w as [w IH] using (well_founded_induction lt_wf). intros t Ht Lv Lw x pp Cx Gi Ep.
    destruct (s_new_view (stays S x w)) as [a|] eqn:Ea.
    2:{ exfalso. pose proof (so_none S ok x w Cx Lw ltac:(lia) Ea) as E0. unfold given, evs, sent in Gi. rewrite E0 in Gi. simpl in Gi.
        destruct Gi as [(? & ? & [])|[(? & ? & [] & _)|[]]]. }
    destruct (so_new_view S ok x w a Cx Lw Ea) as (W0 & Dv & Iv & Hv & _ & Ec).
    destruct (accepted_valid x w a Cx Lw Ea) as [Ecp Ebs].
    destruct (C22_batches_partial node (Quorums n) (log S) (nv_cp a) (nv_vcs a) (nv_batches a) Dv Ebs) as (Pm & _).
    assert (Hp : forall t' u, 1 <= t' <= t -> view_no (ordered t') < u < w -> P t' u).
    { intros t' u T U. apply IH; lia. }
    (* the place is above the checkpoint *)
    assert (Above : forall b, In b (nv_batches a) -> cp_end (nv_cp a) < pp_seq_no b).
    { intros b X. apply (in_map pp_seq_no) in X. apply (Permutation_in _ Pm), in_seq in X. lia. }
    assert (Cert : cp_end (nv_cp a) <= prev_view_prepare_cert (nv_cp a) (nv_batches a)).
    { unfold prev_view_prepare_cert. destruct (rev (nv_batches a)) as [|b r] eqn:Er; [lia|].
      assert (X : In b (nv_batches a)) by (rewrite in_rev, Er; left; reflexivity). pose proof (Above b X). lia. }
    assert (Src : prev_view_prepare_cert (nv_cp a) (nv_batches a) < t \/ exists b, In b (nv_batches a) /\ is_batch pp b).
    { destruct Gi as [(y & ck & X)|[(pp0 & ck & X & ->)|X]].
      - destruct (le_lt_dec t (prev_view_prepare_cert (nv_cp a) (nv_batches a))) as [L|L]; [|auto].
        right. apply (Li x w a pp y ck Cx Lw Ea X). lia.
      - right. destruct (so_old S ok x w pp0 ck Cx Lw X) as (a' & b & E & Ib & B). assert (a' = a) as -> by congruence.
        exists b. split; [exact Ib|]. exact B.
      - left. destruct (h_sent _ _ _ _ _ _ (stay_H x w Cx Lw) pp X) as (_ & _ & B). unfold st in B. rewrite Ec in B. lia. }
    destruct (le_lt_dec t (cp_end (nv_cp a))) as [L|L].
    { exfalso. destruct Src as [X|(b & Ib & (B & _))]; [lia|]. pose proof (Above b Ib). lia. }
    destruct (listed_in x w a t Cx Lw Ea Ht Lv L Hp) as (b & Ib & Eb & (S1 & S2 & S3) & Ub).
    destruct Src as [X|(b' & Ib' & (B1 & B2 & B3))].
    { exfalso. pose proof (La x w a b Cx Lw Ea Ib). lia. }
    assert (b' = b) as -> by (apply Ub; [exact Ib'|lia]). unfold is_batch. split; [congruence|]. split; congruence.
  Qed.
End Survives.
