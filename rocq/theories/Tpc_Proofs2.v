(** Lemmas about the ordering service: where votes and batches come from. *)
From Coq Require Import List Arith Bool Lia.
From Verif Require Import Quorum_Model Validator_Model NewView_Model NewView_Props Tpc_Model Tpc_Proofs.
Import ListNotations.

Section Origin.
  Variable cfg : config.
  (** all events of the run, and the view the run takes place in *)
  Variables (evs : list event) (v cert : nat).

  Definition all_passed (ck : checks) : Prop := ck = Checks true true true true true true.

  (** The primary proposed [pp]: it came from the primary, or it is a batch of an older view
      named by the NewView, or this replica is the primary and sent it. *)
  Definition proposed (outs : list output) (pp : pre_prepare) : Prop :=
    (exists ck, In (EPrePrepare pp (primary cfg) ck) evs /\ all_passed ck) \/
    (exists pp0 ck, In (EOldPrePrepare pp0 ck) evs /\ pp = reissue v pp0 /\ all_passed ck) \/
    In (OPrePrepare pp) outs.
  (** [x] prepared [pp] *)
  Definition vouched (outs : list output) (x : node) (pp : pre_prepare) : Prop :=
    (x = me cfg /\ In (OPrepare (prepare_of pp)) outs) \/
    (exists p, In (EPrepare p x) evs /\ p_key p = pp_key pp /\ prepare_matches p pp = true).
  (** [x] committed the place of [pp], signing its result if it signs at all *)
  Definition committed (outs : list output) (x : node) (pp : pre_prepare) : Prop :=
    (x = me cfg /\ In (OCommit (Commit (pp_view pp) (pp_seq pp) (sign cfg false pp)) pp) outs) \/
    (exists c, In (ECommit c x) evs /\ c_key c = pp_key pp /\
       (c_sig c = None \/ c_sig c = Some (signed_value pp))).

  Lemma proposed_mono outs o pp : proposed outs pp -> proposed (outs ++ o) pp.
  Proof. intros [H|[H|H]]; [left|right; left|right; right]; auto. apply in_or_app. auto. Qed.
  Lemma vouched_mono outs o x pp : vouched outs x pp -> vouched (outs ++ o) x pp.
  Proof. intros [[H1 H2]|H]; [left; split; auto; apply in_or_app; auto|right; exact H]. Qed.
  Lemma committed_mono outs o x pp : committed outs x pp -> committed (outs ++ o) x pp.
  Proof. intros [[H1 H2]|H]; [left; split; auto; apply in_or_app; auto|right; exact H]. Qed.

  (** Inputs of a primary: no PrePrepare from itself; batches of older views only if the
      NewView has some, one for each place. *)
  Record wf : Prop := {
    w_self : forall pp x ck, In (EPrePrepare pp x ck) evs -> x <> me cfg;
    w_old : forall pp ck, In (EOldPrePrepare pp ck) evs -> 1 <= cert;
    w_old1 : forall pp ck pp' ck', In (EOldPrePrepare pp ck) evs -> In (EOldPrePrepare pp' ck') evs ->
               pp_seq pp = pp_seq pp' -> pp = pp' }.

  Definition opn (st : replica) (k : key) : Prop := snd (r_last_ordered st) < snd k.
  Definition safe (st : replica) (k : key) : Prop := opn st k \/ cert < snd k.

  (** what is known about the state ... *)
  Record J (outs : list output) (st : replica) : Prop := {
    j_view : r_view st = v /\ r_prev_cert st = cert;
    j_role : (me cfg <> primary cfg -> r_sent st = []) /\ (me cfg = primary cfg -> r_pps st = []);
    j_pp : forall k pp, safe st k -> get_preprepare st k = Some pp -> proposed outs pp;
    j_pv : forall k, safe st k -> voters k (r_prepares st) <> [] -> get_preprepare st k <> None;
    j_pn : forall k, NoDup (voters k (r_prepares st));
    j_prep : forall k x pp, safe st k -> In x (voters k (r_prepares st)) -> get_preprepare st k = Some pp ->
               x <> primary cfg /\ vouched outs x pp;
    j_cv : forall k, opn st k -> voters k (r_commits st) <> [] -> get_preprepare st k <> None;
    j_cn : forall k, NoDup (voters k (r_commits st));
    j_comm : forall k x pp, opn st k -> In x (voters k (r_commits st)) -> get_preprepare st k = Some pp ->
               committed outs x pp }.

  Definition prepare_cert (outs : list output) (pp : pre_prepare) : Prop :=
    exists names, NoDup names /\ prepare (q cfg) <= length names /\
      forall x, In x names -> x <> primary cfg /\ vouched outs x pp.
  Definition commit_cert (outs : list output) (pp : pre_prepare) : Prop :=
    exists names, NoDup names /\ commit (q cfg) <= length names /\
      forall x, In x names -> committed outs x pp.

  (** ... and about what was sent *)
  Record H (outs : list output) (st : replica) : Prop := {
    h_prep : forall p, In (OPrepare p) outs -> me cfg <> primary cfg /\ p_view p = v /\
               (In (me cfg) (voters (p_key p) (r_prepares st)) \/ p_seq p <= r_low st);
    h_prep1 : forall p p', In (OPrepare p) outs -> In (OPrepare p') outs -> p_key p = p_key p' -> p = p';
    h_comm : forall c pp, In (OCommit c pp) outs -> c_key c = pp_key pp /\ c_view c = v /\
               (In (me cfg) (voters (c_key c) (r_commits st)) \/ c_seq c <= r_low st) /\
               exists b, c_sig c = sign cfg b pp;
    h_comm1 : forall c pp c' pp', In (OCommit c pp) outs -> In (OCommit c' pp') outs -> c_key c = c_key c' ->
               c = c' /\ pp = pp';
    h_cert : forall c pp, In (OCommit c pp) outs -> cert < pp_seq pp -> proposed outs pp /\ prepare_cert outs pp;
    h_sent : forall pp, In (OPrePrepare pp) outs -> me cfg = primary cfg /\ pp_view pp = v /\
               cert < pp_seq pp <= r_last_pp st;
    h_sent1 : forall pp pp', In (OPrePrepare pp) outs -> In (OPrePrepare pp') outs -> pp_key pp = pp_key pp' -> pp = pp';
    h_ord : forall pp, In (OOrdered pp) outs -> proposed outs pp /\ commit_cert outs pp }.

  Lemma prepare_cert_mono outs o pp : prepare_cert outs pp -> prepare_cert (outs ++ o) pp.
  Proof. intros (n & D & L & F). exists n. split; [auto|split; auto]. intros x X. destruct (F x X). auto using vouched_mono. Qed.
  Lemma commit_cert_mono outs o pp : commit_cert outs pp -> commit_cert (outs ++ o) pp.
  Proof. intros (n & D & L & F). exists n. split; [auto|split; auto]. intros x X. auto using committed_mono. Qed.

  (** the state part under unchanged fields and more outputs *)
  Lemma J_same outs o st st' : J outs st ->
    r_view st' = r_view st -> r_prev_cert st' = r_prev_cert st ->
    snd (r_last_ordered st) <= snd (r_last_ordered st') ->
    r_sent st' = r_sent st -> r_pps st' = r_pps st -> r_prepares st' = r_prepares st -> r_commits st' = r_commits st ->
    J (outs ++ o) st'.
  Proof.
    intros [A B C D E F G K L] V P O Se Pp Pr Co.
    assert (Op : forall k, opn st' k -> opn st k) by (unfold opn; intros k X; lia).
    assert (Sf : forall k, safe st' k -> safe st k) by (intros k [X|X]; [left; auto|right; exact X]).
    constructor; unfold get_preprepare in *; rewrite ?V, ?P, ?Se, ?Pp, ?Pr, ?Co; auto.
    - intros k pp X Y. apply proposed_mono. eapply C; eauto.
    - intros k x pp X Y Z. destruct (F k x pp (Sf k X) Y Z). auto using vouched_mono.
    - intros k x pp X Y Z. apply committed_mono. eapply L; eauto.
  Qed.

  (** the history part when nothing (relevant) was sent *)
  Lemma H_quiet outs o st st' : H outs st ->
    (forall p, ~ In (OPrepare p) o) -> (forall c pp, ~ In (OCommit c pp) o) ->
    (forall pp, ~ In (OPrePrepare pp) o) -> (forall pp, ~ In (OOrdered pp) o) ->
    (forall k, In (me cfg) (voters k (r_prepares st)) -> In (me cfg) (voters k (r_prepares st')) \/ snd k <= r_low st') ->
    (forall k, In (me cfg) (voters k (r_commits st)) -> In (me cfg) (voters k (r_commits st')) \/ snd k <= r_low st') ->
    r_low st <= r_low st' -> r_last_pp st <= r_last_pp st' -> H (outs ++ o) st'.
  Proof.
    intros [A B C D E F G K] N1 N2 N3 N4 V1 V2 L P.
    constructor.
    - intros p X. apply in_app_or in X as [X|X]; [|destruct (N1 _ X)].
      destruct (A p X) as (X1 & X2 & X3). refine (conj X1 (conj X2 _)). destruct X3 as [X3|X3]; [apply (V1 _ X3)|right; lia].
    - intros p p' X Y. apply in_app_or in X as [X|X]; [|destruct (N1 _ X)].
      apply in_app_or in Y as [Y|Y]; [|destruct (N1 _ Y)]. eapply B; eauto.
    - intros c pp X. apply in_app_or in X as [X|X]; [|destruct (N2 _ _ X)].
      destruct (C c pp X) as (X1 & X2 & X3 & X4). refine (conj X1 (conj X2 (conj _ X4))).
      destruct X3 as [X3|X3]; [apply (V2 _ X3)|right; lia].
    - intros c pp c' pp' X Y. apply in_app_or in X as [X|X]; [|destruct (N2 _ _ X)].
      apply in_app_or in Y as [Y|Y]; [|destruct (N2 _ _ Y)]. eapply D; eauto.
    - intros c pp X Y. apply in_app_or in X as [X|X]; [|destruct (N2 _ _ X)].
      destruct (E c pp X Y). auto using proposed_mono, prepare_cert_mono.
    - intros pp X. apply in_app_or in X as [X|X]; [|destruct (N3 _ X)]. destruct (F pp X) as (X1 & X2 & X3).
      refine (conj X1 (conj X2 _)). lia.
    - intros p p' X Y. apply in_app_or in X as [X|X]; [|destruct (N3 _ X)].
      apply in_app_or in Y as [Y|Y]; [|destruct (N3 _ Y)]. eapply G; eauto.
    - intros pp X. apply in_app_or in X as [X|X]; [|destruct (N4 _ X)].
      destruct (K pp X). auto using proposed_mono, commit_cert_mono.
  Qed.
  Lemma H_quiet_nil outs st st' : H outs st ->
    (forall k, In (me cfg) (voters k (r_prepares st)) -> In (me cfg) (voters k (r_prepares st')) \/ snd k <= r_low st') ->
    (forall k, In (me cfg) (voters k (r_commits st)) -> In (me cfg) (voters k (r_commits st')) \/ snd k <= r_low st') ->
    r_low st <= r_low st' -> r_last_pp st <= r_last_pp st' -> H (outs ++ []) st'.
  Proof. intros X V1 V2 L P. apply (H_quiet outs [] st st' X); simpl; auto. Qed.

  Lemma passed st pp x ck : can_process_pre_prepare cfg st pp x ck = true ->
    already_ordered st (pp_key pp) = false -> (already_ordered st (pp_key pp) = false -> ck_apply ck = true) ->
    all_passed ck.
  Proof.
    intros C A Ap. specialize (Ap A). unfold can_process_pre_prepare in C. rewrite A in C.
    destruct ck as [a b c d e f]. simpl in *.
    destruct a; [|discriminate]. destruct (x =? primary cfg); [|discriminate].
    destruct (has (pp_key pp) (r_pps st)); [discriminate|]. destruct b; [|discriminate].
    destruct (lt_3pc (pp_key pp) (last_pp_3pc st)); [discriminate|]. destruct c; [|discriminate].
    destruct (is_next_pre_prepare st (pp_key pp)); [|discriminate]. destruct d; [|discriminate].
    simpl in C. subst. reflexivity.
  Qed.

  (** a message that is processed although its batch was ordered is not above the certificate *)
  Lemma processed_safe st k : r_prev_cert st = cert -> processed st k = true -> safe st k -> opn st k.
  Proof.
    intros Ec P [O|O]; [exact O|]. unfold opn. destruct (le_lt_dec (snd k) (snd (r_last_ordered st))) as [L|L]; [|exact L].
    exfalso. unfold processed, validate_3pc, validate_base in P. simpl in P.
    destruct (snd k =? 0); [discriminate|]. destruct (snd k <=? r_low st); [discriminate|].
    destruct (fst k <? r_view st); [discriminate|]. destruct (r_view st <? fst k); [discriminate|].
    destruct (r_participating st); [|discriminate]. simpl in P.
    destruct (r_waiting st); [discriminate|]. destruct (r_high st <? snd k); [discriminate|].
    unfold has_already_ordered, le_3pc in P. simpl in P.
    destruct (Nat.leb_spec (snd k) (snd (r_last_ordered st))); [|lia].
    rewrite Ec in P. destruct (Nat.ltb_spec cert (snd k)); [|lia]. simpl in P. discriminate.
  Qed.

  Lemma voters_nil k d : (voters k d <> [] -> False) -> voters k d = [].
  Proof. intros F. destruct (voters k d); auto. exfalso. apply F. discriminate. Qed.

  (** recording a new PrePrepare where there was none *)
  Lemma J_new outs o st st' pp : J outs st -> get_preprepare st (pp_key pp) = None \/ ~ safe st (pp_key pp) ->
    r_view st' = r_view st -> r_prev_cert st' = r_prev_cert st ->
    r_last_ordered st' = r_last_ordered st ->
    r_prepares st' = r_prepares st -> r_commits st' = r_commits st ->
    ((me cfg <> primary cfg -> r_sent st' = []) /\ (me cfg = primary cfg -> r_pps st' = [])) ->
    (forall k, get_preprepare st' k = if key_eqb k (pp_key pp) then Some pp else get_preprepare st k) ->
    (safe st (pp_key pp) -> proposed (outs ++ o) pp) -> J (outs ++ o) st'.
  Proof.
    intros [A B C D E F G K L] N V P O Pr Co R Gp Pp.
    assert (Op : forall k, opn st' k -> opn st k) by (unfold opn; intros k X; rewrite O in X; exact X).
    assert (Sf : forall k, safe st' k -> safe st k) by (intros k [X|X]; [left; auto|right; exact X]).
    assert (Os : forall k, opn st k -> safe st k) by (intros k X; left; exact X).
    assert (Nv : safe st (pp_key pp) -> voters (pp_key pp) (r_prepares st) = []).
    { intros S1. apply voters_nil. intros X. destruct N as [N|N]; [|auto]. apply (D _ S1 X N). }
    assert (Nc : opn st (pp_key pp) -> voters (pp_key pp) (r_commits st) = []).
    { intros S1. apply voters_nil. intros X. destruct N as [N|N]; [|auto]. apply (G _ S1 X N). }
    constructor; rewrite ?V, ?P, ?Pr, ?Co; auto.
    - intros k p X. rewrite Gp. destruct (key_eqb_spec k (pp_key pp)) as [->|Nk].
      + intros Y. injection Y as <-. auto.
      + intros Y. apply proposed_mono. eapply C; eauto.
    - intros k X Y. rewrite Gp. destruct (key_eqb k (pp_key pp)); [discriminate|auto].
    - intros k x p X Y. rewrite Gp. destruct (key_eqb_spec k (pp_key pp)) as [->|Nk].
      + rewrite (Nv (Sf _ X)) in Y. destruct Y.
      + intros Z. destruct (F k x p (Sf k X) Y Z). auto using vouched_mono.
    - intros k X Y. rewrite Gp. destruct (key_eqb k (pp_key pp)); [discriminate|auto].
    - intros k x p X Y. rewrite Gp. destruct (key_eqb_spec k (pp_key pp)) as [->|Nk].
      + rewrite (Nc (Op _ X)) in Y. destruct Y.
      + intros Z. apply committed_mono. eapply L; eauto.
  Qed.

  Lemma matches_prepare_of pp : prepare_matches (prepare_of pp) pp = true.
  Proof. unfold prepare_matches. simpl. rewrite !Nat.eqb_refl. reflexivity. Qed.

  Lemma micro_origin outs st st' o : wf -> inv st -> J outs st -> H outs st -> micro cfg evs st st' o ->
    J (outs ++ o) st' /\ H (outs ++ o) st'.
  Proof.
    intros Wf I Jj Hh M. destruct M as [w|w|s|p x pp W Np Nv G Mt Ie|pp W Np G Nv|c x W HP Nv Bl Ie|k pp W G Qm Nv
      |k pp G Qm Al Pr|pp x ck Np P Sc C Ap|pp x ck Np P Sc C Ap|tm d s t a Cs|s].
    - split; [eapply J_same; eauto|eapply H_quiet_nil; simpl; eauto].
    - split; [eapply J_same; eauto|eapply H_quiet_nil; simpl; eauto].
    - split; [eapply J_same; eauto|eapply H_quiet_nil; simpl; eauto].
    - (* a Prepare *)
      split.
      + destruct Jj as [A B C D E F G' K L]. constructor; simpl; auto.
        * intros k pp' X Y. apply proposed_mono. eapply C; eauto.
        * intros k X Y. rewrite voters_add in Y. destruct (key_eqb_spec k (p_key p)) as [->|N]; [|apply D; auto].
          change (get_preprepare st (p_key p) <> None). congruence.
        * intros k. apply nodup_voters_add, E.
        * intros k y pp' X Y Z. apply in_voters_add in Y as [Y|[-> ->]].
          { destruct (F k y pp' X Y Z). auto using vouched_mono. }
          { change (get_preprepare st (p_key p) = Some pp') in Z. assert (pp' = pp) as -> by congruence.
            split; [exact Np|]. right. exists p. destruct (get_preprepare_key st (p_key p) pp I G) as [Kk _].
            split; [exact Ie|]. split; [congruence|exact Mt]. }
        * intros k y pp' X Y Z. apply committed_mono. eapply L; eauto.
      + eapply H_quiet_nil; simpl; eauto. intros k X. left. apply in_voters_add. auto.
    - (* own Prepare *)
      assert (Gk : get_preprepare st (pp_key pp) = Some pp).
      { unfold get_preprepare. destruct Jj as [_ [R _] _ _ _ _ _ _ _]. rewrite (R Np). exact G. }
      assert (Fresh : forall p, In (OPrepare p) outs -> p_key p = pp_key pp -> False).
      { intros p X E. destruct (h_prep outs st Hh p X) as (_ & _ & Y). rewrite E in Y.
        assert (Es : p_seq p = pp_seq pp) by (change (snd (p_key p) = snd (pp_key pp)); congruence).
        destruct Y as [Y|Y]; [apply has_vote_In in Y; congruence|]. destruct W as [_ W]. simpl in W. lia. }
      split.
      + destruct Jj as [A B C D E F G' K L]. constructor; simpl; auto.
        * intros k pp' X Y. apply proposed_mono. eapply C; eauto.
        * intros k X Y. rewrite voters_add in Y. destruct (key_eqb_spec k (pp_key pp)) as [->|N]; [|apply D; auto].
          change (get_preprepare st (pp_key pp) <> None). congruence.
        * intros k. apply nodup_voters_add, E.
        * intros k y pp' X Y Z. apply in_voters_add in Y as [Y|[-> ->]].
          { destruct (F k y pp' X Y Z). auto using vouched_mono. }
          { change (get_preprepare st (pp_key pp) = Some pp') in Z. assert (pp' = pp) as -> by congruence.
            split; [exact Np|]. left. split; [reflexivity|]. apply in_or_app. right. left. reflexivity. }
        * intros k y pp' X Y Z. apply committed_mono. eapply L; eauto.
      + destruct Hh as [A B C D E F G' K]. constructor.
        * intros p X. apply in_app_or in X as [X|[X|[]]].
          { destruct (A p X) as (X1 & X2 & X3). refine (conj X1 (conj X2 _)).
            destruct X3 as [X3|X3]; [left; simpl; apply in_voters_add; auto|right; exact X3]. }
          { injection X as <-. destruct W as [W1 W2]. refine (conj Np (conj _ _)).
            - destruct Jj as [[J1 _] _ _ _ _ _ _ _ _]. simpl in *. congruence.
            - left. simpl. apply in_voters_add. right. auto. }
        * intros p p' X Y Z. apply in_app_or in X as [X|[X|[]]]; apply in_app_or in Y as [Y|[Y|[]]].
          { eapply B; eauto. }
          { injection Y as <-. destruct (Fresh p X). exact Z. }
          { injection X as <-. destruct (Fresh p' Y). symmetry. exact Z. }
          { congruence. }
        * intros c p X. apply in_app_or in X as [X|[X|[]]]; [|discriminate]. exact (C c p X).
        * intros c p c' p' X Y. apply in_app_or in X as [X|[X|[]]]; [|discriminate].
          apply in_app_or in Y as [Y|[Y|[]]]; [|discriminate]. eapply D; eauto.
        * intros c p X Y. apply in_app_or in X as [X|[X|[]]]; [|discriminate].
          destruct (E c p X Y). auto using proposed_mono, prepare_cert_mono.
        * intros p X. apply in_app_or in X as [X|[X|[]]]; [|discriminate]. exact (F p X).
        * intros p p' X Y. apply in_app_or in X as [X|[X|[]]]; [|discriminate].
          apply in_app_or in Y as [Y|[Y|[]]]; [|discriminate]. eapply G'; eauto.
        * intros p X. apply in_app_or in X as [X|[X|[]]]; [|discriminate].
          destruct (K p X). auto using proposed_mono, commit_cert_mono.
    - (* a Commit *)
      assert (Gk : exists pp, get_preprepare st (c_key c) = Some pp).
      { unfold has_prepared in HP. destruct (get_preprepare st (c_key c)) as [pp|]; [eauto|discriminate]. }
      destruct Gk as [pp Gk].
      split.
      + destruct Jj as [A B C D E F G' K L]. constructor; simpl; auto.
        * intros k pp' X Y. apply proposed_mono. eapply C; eauto.
        * intros k y pp' X Y Z. destruct (F k y pp' X Y Z). auto using vouched_mono.
        * intros k X Y. rewrite voters_add in Y. destruct (key_eqb_spec k (c_key c)) as [->|N]; [|apply G'; auto].
          change (get_preprepare st (c_key c) <> None). congruence.
        * intros k. apply nodup_voters_add, K.
        * intros k y pp' X Y Z. apply in_voters_add in Y as [Y|[-> ->]].
          { apply committed_mono. eapply L; eauto. }
          { change (get_preprepare st (c_key c) = Some pp') in Z. assert (pp' = pp) as -> by congruence.
            destruct (get_preprepare_key st (c_key c) pp I Gk) as [Kk _].
            right. exists c. split; [exact Ie|]. split; [congruence|].
            unfold bls_commit_ok in Bl. rewrite Gk in Bl.
            assert (Al : already_ordered st (c_key c) = false).
            { unfold already_ordered, has_already_ordered, le_3pc. apply Nat.leb_gt. exact X. }
            rewrite Al in Bl. destruct (c_sig c) as [u|]; [right|left; reflexivity].
            unfold value_eqb in Bl. rewrite !andb_true_iff, !Nat.eqb_eq in Bl.
            destruct u as [[u1 u2] u3]. simpl in Bl. destruct Bl as [[-> ->] ->]. reflexivity. }
      + eapply H_quiet_nil; simpl; eauto. intros k X. left. apply in_voters_add. auto.
    - (* own Commit *)
      assert (Ff : forall A (f : replica -> A), (forall l, f (set_prepared st l) = f st) -> f (prepare_batch st pp) = f st).
      { intros A f Hf. unfold prepare_batch. destruct (existsb _ _); auto. }
      destruct (get_preprepare_key st k pp I G) as [Kk _].
      assert (F1 : r_sent (prepare_batch st pp) = r_sent st) by (apply Ff; reflexivity).
      assert (F2 : r_pps (prepare_batch st pp) = r_pps st) by (apply Ff; reflexivity).
      assert (F3 : r_prepares (prepare_batch st pp) = r_prepares st) by (apply Ff; reflexivity).
      assert (F4 : r_commits (prepare_batch st pp) = r_commits st) by (apply Ff; reflexivity).
      assert (F5 : r_low (prepare_batch st pp) = r_low st) by (apply Ff; reflexivity).
      assert (F6 : r_last_pp (prepare_batch st pp) = r_last_pp st) by (apply Ff; reflexivity).
      assert (F7 : r_last_ordered (prepare_batch st pp) = r_last_ordered st) by (apply Ff; reflexivity).
      assert (F8 : r_view (prepare_batch st pp) = r_view st) by (apply Ff; reflexivity).
      assert (F9 : r_prev_cert (prepare_batch st pp) = r_prev_cert st) by (apply Ff; reflexivity).
      set (st' := set_commits _ _). set (c := Commit _ _ _).
      assert (Gp : forall k', get_preprepare st' k' = get_preprepare st k').
      { intros k'. unfold get_preprepare, st'. simpl. rewrite F1, F2. reflexivity. }
      assert (Ck : c_key c = k) by (destruct k; reflexivity).
      assert (Fresh : forall c' p, In (OCommit c' p) outs -> c_key c' = k -> False).
      { intros c' p X E. destruct (h_comm outs st Hh c' p X) as (_ & _ & Y & _). rewrite E in Y.
        assert (Es : c_seq c' = snd k) by (change (snd (c_key c') = snd k); congruence).
        destruct Y as [Y|Y]; [apply has_vote_In in Y; congruence|]. destruct W as [_ W]. lia. }
      split.
      + destruct Jj as [A B C D E F G' K L]. constructor; unfold opn, safe, opn in *.
        * unfold st'. simpl. rewrite F8, F9. exact A.
        * unfold st'. simpl. rewrite F1, F2. exact B.
        * intros k' pp' X. rewrite Gp. intros Y. apply proposed_mono. unfold st' in X. simpl in X. rewrite F7 in X. eapply C; eauto.
        * intros k' X Y. rewrite Gp. unfold st' in X, Y. simpl in X, Y. rewrite F7 in X. rewrite F3 in Y. auto.
        * intros k'. unfold st'. simpl. rewrite F3. apply E.
        * intros k' y pp' X Y. rewrite Gp. intros Z. unfold st' in X, Y. simpl in X, Y. rewrite F7 in X. rewrite F3 in Y.
          destruct (F k' y pp' X Y Z). auto using vouched_mono.
        * intros k' X Y. rewrite Gp. unfold st' in X, Y. simpl in X, Y. rewrite F7 in X. rewrite F4 in Y.
          rewrite voters_add in Y. destruct (key_eqb_spec k' k) as [->|N]; [congruence|auto].
        * intros k'. unfold st'. simpl. rewrite F4. apply nodup_voters_add, K.
        * intros k' y pp' X Y. rewrite Gp. intros Z. unfold st' in X, Y. simpl in X, Y. rewrite F7 in X. rewrite F4 in Y.
          apply in_voters_add in Y as [Y|[-> ->]].
          { apply committed_mono. eapply L; eauto. }
          { assert (pp' = pp) as -> by congruence. left. split; [reflexivity|]. apply in_or_app. right. left.
            unfold c. subst k. simpl. f_equal. f_equal.
            assert (already_ordered st (pp_key pp) = false) as ->; [|reflexivity].
            unfold already_ordered, has_already_ordered, le_3pc. apply Nat.leb_gt. exact X. }
      + assert (Cert : cert < pp_seq pp -> proposed (outs ++ [OCommit c pp]) pp /\ prepare_cert (outs ++ [OCommit c pp]) pp).
        { intros X. assert (Sf : safe st k) by (right; subst k; exact X).
          split; [apply proposed_mono; eapply (j_pp outs st Jj); eauto|].
          exists (voters k (r_prepares st)). split; [apply (j_pn outs st Jj)|].
          split; [apply Nat.leb_le; exact Qm|]. intros y Y.
          destruct (j_prep outs st Jj k y pp Sf Y G). auto using vouched_mono. }
        destruct Hh as [A B C D E F G' K]. constructor.
        * intros p X. apply in_app_or in X as [X|[X|[]]]; [|discriminate]. destruct (A p X) as (X1 & X2 & X3).
          refine (conj X1 (conj X2 _)). unfold st'. simpl. rewrite F3, F5. exact X3.
        * intros p p' X Y. apply in_app_or in X as [X|[X|[]]]; [|discriminate].
          apply in_app_or in Y as [Y|[Y|[]]]; [|discriminate]. eapply B; eauto.
        * intros c' p X. apply in_app_or in X as [X|[X|[]]].
          { destruct (C c' p X) as (X1 & X2 & X3 & X4). refine (conj X1 (conj X2 (conj _ X4))).
            unfold st'. simpl. rewrite F4, F5. destruct X3 as [X3|X3]; [left; apply in_voters_add; auto|right; exact X3]. }
          { injection X as <- <-. destruct W as [W1 W2]. refine (conj _ (conj _ (conj _ _))).
            - congruence.
            - unfold c. simpl. destruct Jj as [[J1 _] _ _ _ _ _ _ _ _]. congruence.
            - left. unfold st'. simpl. apply in_voters_add. right. auto.
            - exists (already_ordered st k). reflexivity. }
        * intros c1 p1 c2 p2 X Y Z. apply in_app_or in X as [X|[X|[]]]; apply in_app_or in Y as [Y|[Y|[]]].
          { eapply D; eauto. }
          { injection Y as <- <-. destruct (Fresh _ _ X). congruence. }
          { injection X as <- <-. destruct (Fresh _ _ Y). congruence. }
          { injection X as <- <-. injection Y as <- <-. auto. }
        * intros c' p X Y. apply in_app_or in X as [X|[X|[]]].
          { destruct (E c' p X Y). auto using proposed_mono, prepare_cert_mono. }
          { injection X as <- <-. auto. }
        * intros p X. apply in_app_or in X as [X|[X|[]]]; [|discriminate]. unfold st'. simpl. rewrite F6. exact (F p X).
        * intros p p' X Y. apply in_app_or in X as [X|[X|[]]]; [|discriminate].
          apply in_app_or in Y as [Y|[Y|[]]]; [|discriminate]. eapply G'; eauto.
        * intros p X. apply in_app_or in X as [X|[X|[]]]; [|discriminate].
          destruct (K p X). auto using proposed_mono, commit_cert_mono.
    - (* Ordered *)
      destruct (get_preprepare_key st k pp I G) as (Kk & Kv & Kr).
      assert (Op : opn st k).
      { unfold already_ordered, has_already_ordered, le_3pc in Al. apply Nat.leb_gt in Al. exact Al. }
      unfold order_3pc_key. rewrite G. simpl.
      split.
      + eapply J_same; simpl; eauto. unfold opn in Op. simpl. lia.
      + destruct Hh as [A B C D E F G' K]. constructor; simpl.
        * intros p X. apply in_app_or in X as [X|[X|[]]]; [|discriminate]. exact (A p X).
        * intros p p' X Y. apply in_app_or in X as [X|[X|[]]]; [|discriminate].
          apply in_app_or in Y as [Y|[Y|[]]]; [|discriminate]. eapply B; eauto.
        * intros c p X. apply in_app_or in X as [X|[X|[]]]; [|discriminate]. exact (C c p X).
        * intros c p c' p' X Y. apply in_app_or in X as [X|[X|[]]]; [|discriminate].
          apply in_app_or in Y as [Y|[Y|[]]]; [|discriminate]. eapply D; eauto.
        * intros c p X Y. apply in_app_or in X as [X|[X|[]]]; [|discriminate].
          destruct (E c p X Y). auto using proposed_mono, prepare_cert_mono.
        * intros p X. apply in_app_or in X as [X|[X|[]]]; [|discriminate]. destruct (F p X) as (X1 & X2 & X3).
          refine (conj X1 (conj X2 _)). destruct (Nat.ltb_spec (r_last_pp st) (snd k)); lia.
        * intros p p' X Y. apply in_app_or in X as [X|[X|[]]]; [|discriminate].
          apply in_app_or in Y as [Y|[Y|[]]]; [|discriminate]. eapply G'; eauto.
        * intros p X. apply in_app_or in X as [X|[X|[]]].
          { destruct (K p X). auto using proposed_mono, commit_cert_mono. }
          { injection X as <-. split; [apply proposed_mono; eapply (j_pp outs st Jj); eauto; left; exact Op|].
            exists (voters k (r_commits st)). split; [apply (j_cn outs st Jj)|]. split; [apply Nat.leb_le; exact Qm|].
            intros y Y. apply committed_mono. eapply (j_comm outs st Jj); eauto. }
    - (* a PrePrepare at a replica that is not the primary *)
      pose proof (processed_window _ _ P) as W.
      destruct (raise_fields (set_pps st (put (pp_key pp) pp (r_pps st))) pp)
        as (F1 & F2 & F3 & F4 & F5 & F6 & F7 & F8 & F9 & F10 & F11).
      set (st' := raise_last_pp _ _) in *. clearbody st'. simpl in *.
      destruct (j_role outs st Jj) as [R1 R2]. specialize (R1 Np).
      destruct (j_view outs st Jj) as [Jv Jc].
      split.
      + apply (J_new outs [] st st' pp Jj).
        * destruct (le_lt_dec (pp_seq pp) (snd (r_last_ordered st))) as [L|L].
          { right. intros Sf. apply (processed_safe st _ Jc P) in Sf. unfold opn in Sf. simpl in Sf. lia. }
          { left. destruct (can_process_next cfg st pp x ck I W C) as [X|(_ & _ & X & _)]; [lia|].
            unfold get_preprepare. rewrite R1. exact X. }
        * exact F1.
        * exact F4.
        * exact F3.
        * exact F7.
        * exact F8.
        * split; [intros _; congruence|]. intros X. contradiction.
        * intros k. unfold get_preprepare. rewrite F5, F6, R1, get_put. simpl. reflexivity.
        * intros Sf. apply (processed_safe st _ Jc P) in Sf. unfold opn in Sf. simpl in Sf.
          destruct (can_process_next cfg st pp x ck I W C) as [X|(_ & Ex & _ & _)]; [lia|].
          assert (Ac : all_passed ck).
          { eapply passed; eauto. unfold already_ordered, has_already_ordered, le_3pc. apply Nat.leb_gt. exact Sf. }
          destruct Sc as [Sc|(_ & pp0 & Sc & E)].
          { left. exists ck. subst x. auto. }
          { right. left. exists pp0, ck. rewrite <- Jv. auto. }
      + eapply H_quiet_nil; eauto.
        * intros k X. rewrite F7. auto.
        * intros k X. rewrite F8. auto.
        * lia.
        * lia.
    - (* a PrePrepare at the primary *)
      pose proof (processed_window _ _ P) as W. unfold add_to_sent_pre_prepares.
      destruct (raise_fields (set_sent st (put (pp_key pp) pp (r_sent st))) pp)
        as (F1 & F2 & F3 & F4 & F5 & F6 & F7 & F8 & F9 & F10 & F11).
      set (st' := raise_last_pp _ _) in *. clearbody st'. simpl in *.
      destruct (j_role outs st Jj) as [R1 R2]. specialize (R2 Np).
      destruct (j_view outs st Jj) as [Jv Jc].
      assert (Gp : forall k, get_preprepare st' k = if key_eqb k (pp_key pp) then Some pp else get_preprepare st k).
      { intros k. unfold get_preprepare. rewrite F5, F6, R2, get_put. destruct (key_eqb k (pp_key pp)); reflexivity. }
      assert (Hq : H (outs ++ []) st').
      { eapply H_quiet_nil; eauto.
        - intros k X. rewrite F7. auto.
        - intros k X. rewrite F8. auto.
        - lia.
        - lia. }
      split; [|exact Hq].
      assert (Rr : (me cfg <> primary cfg -> r_sent st' = []) /\ (me cfg = primary cfg -> r_pps st' = [])).
      { split; [intros X; contradiction|]. intros _. congruence. }
      assert (Src : safe st (pp_key pp) -> exists pp0, In (EOldPrePrepare pp0 ck) evs /\ pp = reissue v pp0 /\ all_passed ck).
      { intros Sf. apply (processed_safe st _ Jc P) in Sf. unfold opn in Sf. simpl in Sf.
        destruct (can_process_next cfg st pp x ck I W C) as [X|(_ & Ex & _ & _)]; [lia|].
        assert (Ac : all_passed ck).
        { eapply passed; eauto. unfold already_ordered, has_already_ordered, le_3pc. apply Nat.leb_gt. exact Sf. }
        destruct Sc as [Sc|(_ & pp0 & Sc & E)].
        - destruct (w_self Wf pp x ck Sc). congruence.
        - exists pp0. rewrite <- Jv. auto. }
      assert (Pro : safe st (pp_key pp) -> proposed (outs ++ []) pp).
      { intros Sf. destruct (Src Sf) as (pp0 & X). right. left. exists pp0, ck. exact X. }
      destruct (can_process_next cfg st pp x ck I W C) as [X|(L & Ex & Gn & [Es|[E1 E2]])].
      + apply (J_new outs [] st st' pp Jj); auto.
        right. intros Sf. apply (processed_safe st _ Jc P) in Sf. unfold opn in Sf. simpl in Sf. lia.
      + apply (J_new outs [] st st' pp Jj); auto. left. unfold get_preprepare. rewrite Gn.
        destruct (get (pp_key pp) (r_sent st)) as [p0|] eqn:Gs; auto.
        destruct (i_sent st I _ _ Gs) as (_ & _ & Z). simpl in Z. lia.
      + (* the first batch again *)
        assert (Sf : safe st (pp_key pp)) by (left; exact L).
        destruct (Src Sf) as (pp1 & S1 & S2 & _).
        assert (Vp : pp_view pp = v) by (destruct W as [W1 _]; simpl in W1; congruence).
        assert (G1 : get_preprepare st (pp_key pp) <> None).
        { unfold pp_key. rewrite Vp, <- Jv. apply (i_cover st I). lia. }
        destruct (get_preprepare st (pp_key pp)) as [p0|] eqn:G0; [|congruence]. clear G1.
        destruct (get_preprepare_key st _ _ I G0) as (Kk & _ & _).
        assert (p0 = pp) as ->.
        { destruct (j_pp outs st Jj _ _ Sf G0) as [(ck0 & X & _)|[(pp2 & ck2 & X1 & X2 & _)|X]].
          - destruct (w_self Wf _ _ _ X). congruence.
          - assert (Es : pp_seq p0 = pp_seq pp) by (change (snd (pp_key p0) = snd (pp_key pp)); congruence).
            rewrite X2, S2 in Es. simpl in Es.
            rewrite X2, S2. f_equal. eapply (w_old1 Wf); eauto.
          - destruct (h_sent outs st Hh p0 X) as (_ & _ & Z). pose proof (w_old Wf _ _ S1).
            assert (Es : pp_seq p0 = pp_seq pp) by (change (snd (pp_key p0) = snd (pp_key pp)); congruence). lia. }
        assert (Gs : forall k, get_preprepare st' k = get_preprepare st k).
        { intros k. rewrite Gp. destruct (key_eqb_spec k (pp_key pp)) as [->|N]; congruence. }
        destruct Jj as [A B C' D E F G' K L'].
        assert (Sv : forall k, safe st' k -> safe st k) by (intros k [Y|Y]; [left; unfold opn in *; congruence|right; exact Y]).
        assert (Ov : forall k, opn st' k -> opn st k) by (intros k Y; unfold opn in *; congruence).
        constructor; rewrite ?F1, ?F4, ?F7, ?F8; auto.
        * intros k p Y Z. rewrite Gs in Z. apply proposed_mono. exact (C' k p (Sv k Y) Z).
        * intros k Y Z. rewrite Gs. auto.
        * intros k y p Y Z T. rewrite Gs in T. destruct (F k y p (Sv k Y) Z T). auto using vouched_mono.
        * intros k Y Z. rewrite Gs. auto.
        * intros k y p Y Z T. rewrite Gs in T. apply committed_mono. exact (L' k y p (Ov k Y) Z T).
    - (* a batch of the primary *)
      unfold send_3pc_batch. rewrite Cs. cbn [fst snd].
      set (pp := {| pp_view := r_view st; pp_seq := S (r_last_pp st); pp_time := tm; pp_dig := d;
                   pp_orig_view := r_view st; pp_state_root := s; pp_txn_root := t; pp_audit_root := a |}).
      unfold add_to_sent_pre_prepares.
      destruct (raise_fields (set_sent st (put (pp_key pp) pp (r_sent st))) pp)
        as (F1 & F2 & F3 & F4 & F5 & F6 & F7 & F8 & F9 & F10 & F11).
      set (st' := raise_last_pp _ _) in *. clearbody st'. cbn in F1, F2, F3, F4, F5, F6, F7, F8, F9, F11.
      replace (r_last_pp (set_sent st (put (pp_key pp) pp (r_sent st)))) with (r_last_pp st) in F10 by reflexivity.
      change (pp_seq pp) with (S (r_last_pp st)) in F10.
      assert (Np : me cfg = primary cfg /\ cert <= r_last_pp st).
      { unfold can_send_3pc_batch in Cs. destruct (Nat.eqb_spec (me cfg) (primary cfg)) as [E|N]; [|discriminate].
        destruct (r_participating st); [|discriminate]. simpl in Cs. destruct (r_waiting st); [discriminate|].
        destruct (Nat.ltb_spec (r_last_pp st) (r_prev_cert st)); [discriminate|].
        split; [exact E|]. destruct (j_view outs st Jj) as [_ <-]. exact H0. }
      destruct Np as [Np Nc].
      destruct (j_role outs st Jj) as [R1 R2]. specialize (R2 Np).
      destruct (j_view outs st Jj) as [Jv Jc].
      assert (Gp : forall k, get_preprepare st' k = if key_eqb k (pp_key pp) then Some pp else get_preprepare st k).
      { intros k. unfold get_preprepare. rewrite F5, F6, R2, get_put. destruct (key_eqb k (pp_key pp)); reflexivity. }
      split.
      + apply (J_new outs [OPrePrepare pp] st st' pp Jj); auto.
        * left. destruct (get_preprepare st (pp_key pp)) as [p0|] eqn:G0; auto.
          destruct (get_preprepare_key st _ _ I G0) as (_ & _ & Z). simpl in Z. lia.
        * split; [intros X; contradiction|]. intros _. congruence.
        * intros _. right. right. apply in_or_app. right. left. reflexivity.
      + destruct Hh as [A B C D E F G' K]. constructor.
        * intros p X. apply in_app_or in X as [X|[X|[]]]; [|discriminate]. rewrite F7, F2. exact (A p X).
        * intros p p' X Y. apply in_app_or in X as [X|[X|[]]]; [|discriminate].
          apply in_app_or in Y as [Y|[Y|[]]]; [|discriminate]. eapply B; eauto.
        * intros c p X. apply in_app_or in X as [X|[X|[]]]; [|discriminate]. rewrite F8, F2. exact (C c p X).
        * intros c p c' p' X Y. apply in_app_or in X as [X|[X|[]]]; [|discriminate].
          apply in_app_or in Y as [Y|[Y|[]]]; [|discriminate]. eapply D; eauto.
        * intros c p X Y. apply in_app_or in X as [X|[X|[]]]; [|discriminate].
          destruct (E c p X Y). auto using proposed_mono, prepare_cert_mono.
        * intros p X. apply in_app_or in X as [X|[X|[]]].
          { destruct (F p X) as (X1 & X2 & X3). refine (conj X1 (conj X2 _)). lia. }
          { injection X as <-. refine (conj Np (conj _ _)); [exact Jv|]. simpl. lia. }
        * intros p p' X Y Z. apply in_app_or in X as [X|[X|[]]]; apply in_app_or in Y as [Y|[Y|[]]].
          { eapply G'; eauto. }
          { injection Y as <-. destruct (F p X) as (_ & _ & X3). unfold pp_key, pp in Z. simpl in Z. injection Z as Z1 Z2. lia. }
          { injection X as <-. destruct (F p' Y) as (_ & _ & X3). unfold pp_key, pp in Z. simpl in Z. injection Z as Z1 Z2. lia. }
          { congruence. }
        * intros p X. apply in_app_or in X as [X|[X|[]]]; [|discriminate].
          destruct (K p X). auto using proposed_mono, commit_cert_mono.
    - (* a stable checkpoint *)
      destruct (stable_cases cfg st s) as [L|[L L2]].
      { rewrite L, app_nil_r. auto. }
      destruct (stable_fields cfg st s L L2) as (F1 & F2 & F3 & F4 & F5 & F6 & F7 & F8 & F9 & F10).
      set (st' := checkpoint_stabilized cfg st s) in *. clearbody st'.
      assert (Gp : forall k, get_preprepare st' k = if gone st s k then None else get_preprepare st k).
      { intros k. unfold get_preprepare. rewrite F5, F6, !get_filter. destruct (gone st s k); reflexivity. }
      split.
      + destruct Jj as [A B C D E F G' K L'].
        assert (Sv : forall k, safe st' k -> safe st k) by (intros k [Y|Y]; [left; unfold opn in *; congruence|right; exact Y]).
        assert (Ov : forall k, opn st' k -> opn st k) by (intros k Y; unfold opn in *; congruence).
        constructor; rewrite ?F1, ?F4, ?F5, ?F6, ?F7, ?F8; auto.
        * destruct B as [B1 B2]. split; [intros X; rewrite (B1 X)|intros X; rewrite (B2 X)]; reflexivity.
        * intros k p Y. rewrite Gp. destruct (gone st s k); [discriminate|]. intros Z. apply proposed_mono. eapply C; eauto.
        * intros k Y. rewrite voters_filter, Gp. destruct (gone st s k); [congruence|auto].
        * intros k. rewrite voters_filter. destruct (gone st s k); [constructor|auto].
        * intros k y p Y. rewrite voters_filter, Gp. destruct (gone st s k); [intros []|].
          intros Z T. destruct (F k y p (Sv k Y) Z T). auto using vouched_mono.
        * intros k Y. rewrite voters_filter, Gp. destruct (gone st s k); [congruence|auto].
        * intros k. rewrite voters_filter. destruct (gone st s k); [constructor|auto].
        * intros k y p Y. rewrite voters_filter, Gp. destruct (gone st s k); [intros []|].
          intros Z T. apply committed_mono. eapply L'; eauto.
      + rewrite app_nil_r. rewrite <- (app_nil_r outs). eapply H_quiet_nil; eauto.
        * intros k X. rewrite F7, F2, voters_filter. destruct (gone st s k) eqn:Gg; [right; apply gone_le in Gg; exact Gg|auto].
        * intros k X. rewrite F8, F2, voters_filter. destruct (gone st s k) eqn:Gg; [right; apply gone_le in Gg; exact Gg|auto].
        * lia.
        * lia.
  Qed.

  (** A batch for which a Commit was sent, or which was ordered, stays the batch of its place. *)
  Record Kp (outs : list output) (st : replica) : Prop := {
    k_keep : forall pp, (In (OOrdered pp) outs \/ exists c, In (OCommit c pp) outs) -> cert < pp_seq pp ->
      get_preprepare st (pp_key pp) = Some pp \/ pp_seq pp <= r_low st;
    k_same : forall pp c pp', In (OOrdered pp) outs -> In (OCommit c pp') outs -> pp_key pp = pp_key pp' ->
      cert < pp_seq pp -> pp = pp' }.

  Lemma Kp_quiet outs o st st' : Kp outs st ->
    (forall c pp, ~ In (OCommit c pp) o) -> (forall pp, ~ In (OOrdered pp) o) ->
    (forall k pp, cert < snd k -> get_preprepare st k = Some pp -> get_preprepare st' k = Some pp \/ snd k <= r_low st') ->
    r_low st <= r_low st' -> Kp (outs ++ o) st'.
  Proof.
    intros [A B] N1 N2 G L. constructor.
    - intros pp X Cc.
      assert (X' : In (OOrdered pp) outs \/ exists c, In (OCommit c pp) outs).
      { destruct X as [X|[c X]]; apply in_app_or in X as [X|X]; eauto; [destruct (N2 _ X)|destruct (N1 _ _ X)]. }
      destruct (A pp X' Cc) as [Y|Y]; [exact (G (pp_key pp) pp Cc Y)|]. right. lia.
    - intros pp c pp' X Y. apply in_app_or in X as [X|X]; [|destruct (N2 _ X)].
      apply in_app_or in Y as [Y|Y]; [|destruct (N1 _ _ Y)]. eapply B; eauto.
  Qed.

  (** adding a Commit or Ordered for the batch at its place *)
  Lemma Kp_add outs o st st' pp : Kp outs st -> (o = [OOrdered pp] \/ exists c, o = [OCommit c pp]) ->
    get_preprepare st (pp_key pp) = Some pp -> r_low st < pp_seq pp \/ ~ (cert < pp_seq pp) ->
    (forall k, get_preprepare st' k = get_preprepare st k) -> r_low st' = r_low st -> Kp (outs ++ o) st'.
  Proof.
    intros [A B] O G W Gs L. constructor.
    - intros p X Cc. rewrite Gs, L.
      assert (Y : p = pp \/ (In (OOrdered p) outs \/ exists c, In (OCommit c p) outs)).
      { destruct X as [X|[c X]]; apply in_app_or in X as [X|X]; eauto;
          destruct O as [->|[c' ->]]; destruct X as [X|[]]; try discriminate X; injection X; intros; subst; auto. }
      destruct Y as [->|Y]; auto.
    - intros p c p' X Y E Cc.
      assert (Z : forall r, (In (OOrdered r) outs \/ exists c, In (OCommit c r) outs) -> pp_key r = pp_key pp -> cert < pp_seq pp -> r = pp).
      { intros r R Er Cr. assert (pp_seq r = pp_seq pp) as Es by (change (snd (pp_key r) = snd (pp_key pp)); congruence).
        assert (Cr' : cert < pp_seq r) by lia. destruct (A r R Cr') as [Q|Q]; [congruence|]. destruct W; lia. }
      assert (Es : pp_seq p = pp_seq p') by (change (snd (pp_key p) = snd (pp_key p')); congruence).
      apply in_app_or in X as [X|X]; apply in_app_or in Y as [Y|Y].
      + eapply B; eauto.
      + destruct O as [->|[c' ->]]; destruct Y as [Y|[]]; try discriminate Y. injection Y as <- <-. apply Z; auto. congruence.
      + destruct O as [->|[c' ->]]; destruct X as [X|[]]; try discriminate X. injection X as <-. symmetry. apply Z; eauto.
      + destruct O as [->|[c' ->]]; destruct X as [X|[]]; try discriminate X.
        destruct Y as [Y|[]]; discriminate Y.
  Qed.

  Lemma micro_keep outs st st' o : wf -> inv st -> J outs st -> H outs st -> Kp outs st -> micro cfg evs st st' o ->
    Kp (outs ++ o) st'.
  Proof.
    intros Wf I Jj Hh Kk M. destruct (micro_origin outs st st' o Wf I Jj Hh M) as [Jj' _].
    destruct M as [w|w|s|p x pp W Np Nv G Mt Ie|pp W Np G Nv|c x W HP Nv Bl Ie|k pp W G Qm Nv
      |k pp G Qm Al Pr|pp x ck Np P Sc C Ap|pp x ck Np P Sc C Ap|tm d s t a Cs|s].
    - apply (Kp_quiet outs [] st _ Kk); simpl; auto.
    - apply (Kp_quiet outs [] st _ Kk); simpl; auto.
    - apply (Kp_quiet outs [] st _ Kk); simpl; auto.
    - apply (Kp_quiet outs [] st _ Kk); simpl; auto.
    - apply (Kp_quiet outs _ st _ Kk); simpl; auto; intros; intros [X|[]]; discriminate.
    - apply (Kp_quiet outs [] st _ Kk); simpl; auto.
    - destruct (get_preprepare_key st k pp I G) as [<- _].
      apply (Kp_add outs _ st _ pp Kk); eauto.
      + left. destruct W as [_ W]. exact (proj1 W).
      + intros k. unfold get_preprepare, prepare_batch. destruct (existsb _ _); reflexivity.
      + unfold prepare_batch. destruct (existsb _ _); reflexivity.
    - destruct (get_preprepare_key st k pp I G) as [<- _].
      unfold order_3pc_key. rewrite G. simpl. apply (Kp_add outs _ st _ pp Kk); eauto.
      left. unfold already_ordered, has_already_ordered, le_3pc in Al. apply Nat.leb_gt in Al.
      pose proof (i_low st I). simpl in Al. lia.
    - pose proof (processed_window _ _ P) as W.
      destruct (raise_fields (set_pps st (put (pp_key pp) pp (r_pps st))) pp)
        as (F1 & F2 & F3 & F4 & F5 & F6 & F7 & F8 & F9 & F10 & F11).
      set (st' := raise_last_pp _ _) in *. clearbody st'. simpl in *.
      apply (Kp_quiet outs [] st _ Kk); simpl; auto; [|lia].
      intros k p Cc G. destruct (key_eqb_spec k (pp_key pp)) as [->|N].
      2:{ left. unfold get_preprepare in *. rewrite F5, F6, get_put. destruct (key_eqb_spec k (pp_key pp)); [contradiction|exact G]. }
      exfalso. destruct (j_view outs st Jj) as [_ Jc].
      assert (O : opn st (pp_key pp)) by (apply (processed_safe st _ Jc P); right; exact Cc). unfold opn in O. simpl in O.
      destruct (can_process_next cfg st pp x ck I W C) as [X|(_ & _ & X & _)]; [lia|].
      unfold get_preprepare in G. destruct (j_role outs st Jj) as [R1 _]. rewrite (R1 Np) in G. simpl in G. congruence.
    - pose proof (processed_window _ _ P) as W. unfold add_to_sent_pre_prepares in *.
      destruct (raise_fields (set_sent st (put (pp_key pp) pp (r_sent st))) pp)
        as (F1 & F2 & F3 & F4 & F5 & F6 & F7 & F8 & F9 & F10 & F11).
      set (st' := raise_last_pp _ _) in *. clearbody st'. simpl in *.
      destruct (j_role outs st Jj) as [R1 R2]. specialize (R2 Np).
      destruct (j_view outs st Jj) as [Jv Jc].
      apply (Kp_quiet outs [] st _ Kk); simpl; auto; [|lia].
      intros k p Cc G. destruct (key_eqb_spec k (pp_key pp)) as [->|N].
      2:{ left. unfold get_preprepare in *. rewrite F5, F6, get_put. destruct (key_eqb_spec k (pp_key pp)); [contradiction|exact G]. }
      exfalso.
      assert (O : opn st (pp_key pp)) by (apply (processed_safe st _ Jc P); right; exact Cc). unfold opn in O. simpl in O, Cc.
      destruct (can_process_next cfg st pp x ck I W C) as [X|(L & Ex & Gn & [Es|[E1 E2]])]; [lia| |].
      + destruct (get_preprepare_key st _ _ I G) as (_ & _ & Z). simpl in Z. lia.
      + destruct Sc as [Sc|(_ & pp0 & Sc & E)].
        * destruct (w_self Wf _ _ _ Sc). congruence.
        * pose proof (w_old Wf _ _ Sc). lia.
    - unfold send_3pc_batch in *. rewrite Cs in *. cbn [fst snd] in *.
      set (pp := {| pp_view := r_view st; pp_seq := S (r_last_pp st); pp_time := tm; pp_dig := d;
                   pp_orig_view := r_view st; pp_state_root := s; pp_txn_root := t; pp_audit_root := a |}) in *.
      unfold add_to_sent_pre_prepares in *.
      destruct (raise_fields (set_sent st (put (pp_key pp) pp (r_sent st))) pp)
        as (F1 & F2 & F3 & F4 & F5 & F6 & F7 & F8 & F9 & F10 & F11).
      set (st' := raise_last_pp _ _) in *. clearbody st'. cbn in F2, F5, F6.
      apply (Kp_quiet outs _ st _ Kk); auto.
      + intros c p [X|[]]; discriminate.
      + intros p [X|[]]; discriminate.
      + intros k p Cc G. left. destruct (get_preprepare_key st _ _ I G) as (_ & _ & Z).
        unfold get_preprepare in *. rewrite F5, F6, get_put. destruct (key_eqb_spec k (pp_key pp)) as [->|N]; [|exact G].
        simpl in Z. lia.
      + lia.
    - destruct (stable_cases cfg st s) as [L|[L L2]].
      { rewrite L, app_nil_r. exact Kk. }
      destruct (stable_fields cfg st s L L2) as (F1 & F2 & F3 & F4 & F5 & F6 & F7 & F8 & F9 & F10).
      set (st' := checkpoint_stabilized cfg st s) in *. clearbody st'.
      apply (Kp_quiet outs [] st _ Kk); simpl; auto; [|lia].
      intros k p Cc G. unfold get_preprepare in *. rewrite F5, F6, !get_filter.
      destruct (gone st s k) eqn:Gg; [right; rewrite F2; apply gone_le in Gg; exact Gg|left; exact G].
  Qed.

  (** Prepares are sent for proposed batches *)
  Definition prepares_ok (outs : list output) : Prop :=
    forall p, In (OPrepare p) outs -> cert < p_seq p -> exists pp, p = prepare_of pp /\ proposed outs pp.
  Lemma micro_prepares outs st st' o : inv st -> J outs st -> prepares_ok outs -> micro cfg evs st st' o ->
    prepares_ok (outs ++ o).
  Proof.
    intros I Jj Q M.
    assert (Old : forall o', (forall p, ~ In (OPrepare p) o') -> prepares_ok (outs ++ o')).
    { intros o' N p X Cc. apply in_app_or in X as [X|X]; [|destruct (N _ X)].
      destruct (Q p X Cc) as (pp & E & Pp). exists pp. auto using proposed_mono. }
    destruct M as [w|w|s|p x pp W Np Nv G Mt Ie|pp W Np G Nv|c x W HP Nv Bl Ie|k pp W G Qm Nv
      |k pp G Qm Al Pr|pp x ck Np P Sc C Ap|pp x ck Np P Sc C Ap|tm d s t a Cs|s].
    - apply Old. intros p' [].
    - apply Old. intros p' [].
    - apply Old. intros p' [].
    - apply Old. intros p' [].
    - intros p' X Cc. apply in_app_or in X as [X|[X|[]]].
      + destruct (Q p' X Cc) as (pp' & E & Pp). exists pp'. auto using proposed_mono.
      + injection X as <-. exists pp. split; [reflexivity|]. apply proposed_mono.
        apply (j_pp outs st Jj (pp_key pp)); [right; exact Cc|].
        unfold get_preprepare. destruct (j_role outs st Jj) as [R _]. rewrite (R Np). exact G.
    - apply Old. intros p' [].
    - apply Old. intros p' [X|[]]; discriminate.
    - apply Old. intros p' [X|[]]; discriminate.
    - apply Old. intros p' [].
    - apply Old. intros p' [].
    - apply Old. unfold send_3pc_batch. rewrite Cs. intros p' [X|[]]; discriminate.
    - apply Old. intros p' [].
  Qed.

  (** the batches marked as prepared, which a ViewChange message will list *)
  Record listed (outs : list output) (st : replica) : Prop := {
    l_prepared : forall c pp, In (OCommit c pp) outs ->
      In (preprepare_to_batch_id pp) (r_prepared st) \/ pp_seq pp <= r_low st;
    l_keys : forall k p, In (k, p) (r_sent st) \/ In (k, p) (r_pps st) -> pp_key p = k }.

  Lemma in_put {A} k (x : A) d k' x' : In (k', x') (put k x d) -> (k' = k /\ x' = x) \/ In (k', x') d.
  Proof.
    induction d as [|[k0 x0] d IH]; simpl.
    - intros [E|[]]. injection E; auto.
    - destruct (key_eqb k k0); simpl; intros [E|E]; [injection E; auto|auto|injection E; auto|]. destruct (IH E); auto.
  Qed.

  Lemma in_existsb_bid b l : existsb (bid_eqb b) l = true -> In b l.
  Proof.
    intros E. apply existsb_exists in E as (b' & B & E). assert (b = b') as ->; [|exact B].
    revert E. unfold bid_eqb. rewrite !andb_true_iff, !Nat.eqb_eq. destruct b, b'. simpl. intuition congruence.
  Qed.

  Lemma micro_listed outs st st' o : listed outs st -> micro cfg evs st st' o -> listed (outs ++ o) st'.
  Proof.
    intros [L Ks] M.
    assert (Q : forall o' st0, (forall c pp, ~ In (OCommit c pp) o') -> r_prepared st0 = r_prepared st -> r_low st0 = r_low st ->
      (forall k p, In (k, p) (r_sent st0) \/ In (k, p) (r_pps st0) -> pp_key p = k) -> listed (outs ++ o') st0).
    { intros o' st0 N E1 E2 E3. constructor; [|exact E3]. intros c pp X. rewrite E1, E2.
      apply in_app_or in X as [X|X]; [exact (L c pp X)|destruct (N _ _ X)]. }
    destruct M as [w|w|s|p x pp W Np Nv G Mt Ie|pp W Np G Nv|c' x W HP Nv Bl Ie|k pp W G Qm Nv
      |k pp G Qm Al Pr|pp x ck Np P Sc C Ap|pp x ck Np P Sc C Ap|tm d s t a Cs|s].
    - apply Q; simpl; auto.
    - apply Q; simpl; auto.
    - apply Q; simpl; auto.
    - apply Q; simpl; auto.
    - apply Q; simpl; auto. intros c p [X|[]]; discriminate.
    - apply Q; simpl; auto.
    - constructor.
      + intros c pp0 X. apply in_app_or in X as [X|[X|[]]].
        * destruct (L c pp0 X) as [Y|Y]; unfold prepare_batch; destruct (existsb _ _); simpl; auto.
          left. apply in_or_app. auto.
        * injection X as <- <-. left. unfold prepare_batch. destruct (existsb _ _) eqn:E; simpl.
          { apply in_existsb_bid, E. }
          { apply in_or_app. right. left. reflexivity. }
      + unfold prepare_batch. destruct (existsb _ _); simpl; exact Ks.
    - unfold order_3pc_key. rewrite G. simpl. apply Q; simpl; auto. intros c p [X|[]]; discriminate.
    - destruct (raise_fields (set_pps st (put (pp_key pp) pp (r_pps st))) pp)
        as (F1 & F2 & F3 & F4 & F5 & F6 & F7 & F8 & F9 & F10 & F11).
      apply Q; auto. intros k p. rewrite F5, F6. simpl. intros [X|X]; [auto|]. apply in_put in X as [[-> ->]|X]; auto.
    - unfold add_to_sent_pre_prepares.
      destruct (raise_fields (set_sent st (put (pp_key pp) pp (r_sent st))) pp)
        as (F1 & F2 & F3 & F4 & F5 & F6 & F7 & F8 & F9 & F10 & F11).
      apply Q; auto. intros k p. rewrite F5, F6. simpl. intros [X|X]; [|auto]. apply in_put in X as [[-> ->]|X]; auto.
    - unfold send_3pc_batch. rewrite Cs. cbn [fst snd].
      unfold add_to_sent_pre_prepares.
      match goal with |- context [preprepare_batch ?s ?p] => destruct (raise_fields s p) as (F1 & F2 & F3 & F4 & F5 & F6 & F7 & F8 & F9 & F10 & F11) end.
      apply Q; auto.
      + intros c p [X|[]]; discriminate.
      + intros k p. rewrite F5, F6. simpl. intros [X|X]; [|auto]. apply in_put in X as [[-> ->]|X]; auto.
    - unfold checkpoint_stabilized.
      destruct ((snd (r_last_ordered st) <? s) || (s <? r_low st)) eqn:Z; [apply Q; simpl; auto|]. simpl.
      apply orb_false_iff in Z as [_ Z]. apply Nat.ltb_ge in Z. constructor; simpl.
      + intros c pp0 X. rewrite app_nil_r in X.
        destruct (le_lt_dec (pp_seq pp0) s) as [T|T]; [auto|]. left.
        destruct (L c pp0 X) as [Y|Y]; [|lia].
        apply filter_In. split; [exact Y|].
        apply negb_true_iff. apply Bool.not_true_is_false. intros E. apply existsb_exists in E as ([k p] & E1 & E2).
        apply andb_true_iff in E2 as [E2 E3]. simpl in *. apply key_mem_In in E2. apply filter_In in E2 as [_ E2].
        apply Nat.leb_le in E2. apply in_app_or in E1. apply Ks in E1. subst k. simpl in E2.
        unfold bid_eqb in E3. simpl in E3. rewrite !andb_true_iff, !Nat.eqb_eq in E3. lia.
      + intros k p [X|X]; apply filter_In in X as [X _]; auto.
  Qed.
End Origin.

(** Runs: an invariant that elementary changes keep holds after every run. *)
Lemma micros_ind_outs cfg evs (P : list output -> replica -> Prop) :
  (forall outs st st' o, P outs st -> micro cfg evs st st' o -> P (outs ++ o) st') ->
  forall st st' o, micros cfg evs st st' o -> forall outs, P outs st -> P (outs ++ o) st'.
Proof.
  intros Hs st st' o M. induction M as [st|st st1 st2 o1 o2 M1 M2 IH]; intros outs X.
  - rewrite app_nil_r. exact X.
  - rewrite app_assoc. apply IH. apply Hs with st; assumption.
Qed.

(** The state of a replica when ordering starts in a view: no messages of this view yet. *)
Record view_start (st : replica) : Prop := {
  s_sent : r_sent st = []; s_pps : r_pps st = []; s_prepares : r_prepares st = []; s_commits : r_commits st = [];
  s_prep_wait : forall k l, get k (r_prep_wait st) = Some l -> fst k <> r_view st;
  s_comm_wait : forall k l, get k (r_comm_wait st) = Some l -> fst k <> r_view st;
  s_ordered : forall k, In k (r_ordered st) -> fst k = r_view st -> snd k <= snd (r_last_ordered st);
  s_last : r_last_pp st = snd (r_last_ordered st);
  s_low : r_low st <= snd (r_last_ordered st) }.

Section Run.
  Variable cfg : config.
  Variables (evs : list event) (st : replica).
  Hypothesis start : view_start st.
  Let outs := snd (run cfg st evs).
  Let fin := fst (run cfg st evs).

  Lemma start_inv : inv st.
  Proof.
    destruct start as [A B C D E F G K L]. constructor; rewrite ?A, ?B; simpl; try discriminate; auto.
    - intros t T. lia.
    - lia.
  Qed.
  Lemma start_qok : qok evs st.
  Proof.
    destruct start as [A B C D E F G K L]. split; intros k l p x V Gt; [destruct (E k l Gt V)|destruct (F k l Gt V)].
  Qed.
  Lemma start_micros : micros cfg evs st fin outs.
  Proof. apply run_micros; [exact start_qok|]. intros x X. exact X. Qed.
  Lemma start_J : J cfg evs (r_view st) (r_prev_cert st) [] st.
  Proof.
    destruct start as [A B C D E F G K L].
    constructor; unfold get_preprepare; rewrite ?A, ?B, ?C, ?D; simpl; auto; try discriminate; try (constructor; fail).
  Qed.
  Lemma start_H : H cfg evs (r_view st) (r_prev_cert st) [] st.
  Proof. constructor; simpl; contradiction. Qed.
  Lemma start_Kp : Kp (r_prev_cert st) [] st.
  Proof. constructor; simpl; [intros pp [[]|[c []]]|contradiction]. Qed.
  Lemma start_listed : listed [] st.
  Proof.
    destruct start as [A B C D E F G K L]. constructor; [intros c pp []|]. rewrite A, B. intros k p [[]|[]].
  Qed.

  Lemma run_listed : listed outs fin.
  Proof.
    apply (micros_ind_outs cfg evs listed) with (st := st) (outs := []).
    - intros o s s' o' X M. eapply micro_listed; eauto.
    - exact start_micros.
    - exact start_listed.
  Qed.

  Hypothesis good : wf cfg evs (r_prev_cert st).

  Theorem run_origin : inv fin /\ J cfg evs (r_view st) (r_prev_cert st) outs fin /\
    H cfg evs (r_view st) (r_prev_cert st) outs fin /\ Kp (r_prev_cert st) outs fin.
  Proof.
    apply (micros_ind_outs cfg evs (fun outs fin => inv fin /\ J cfg evs (r_view st) (r_prev_cert st) outs fin /\
      H cfg evs (r_view st) (r_prev_cert st) outs fin /\ Kp (r_prev_cert st) outs fin)) with (st := st) (outs := []).
    - intros o s s' o' (I & X & Y & Z) M. destruct (micro_origin _ _ _ _ _ _ _ _ good I X Y M) as [X' Y'].
      refine (conj _ (conj X' (conj Y' _))).
      + apply (micro_inv cfg evs s s' o' I M).
      + eapply micro_keep; eauto.
    - exact start_micros.
    - exact (conj start_inv (conj start_J (conj start_H start_Kp))).
  Qed.

  Theorem run_prepares : prepares_ok cfg evs (r_view st) (r_prev_cert st) outs.
  Proof.
    apply (micros_ind_outs cfg evs (fun outs fin => (inv fin /\ J cfg evs (r_view st) (r_prev_cert st) outs fin /\
      H cfg evs (r_view st) (r_prev_cert st) outs fin) /\ prepares_ok cfg evs (r_view st) (r_prev_cert st) outs)) with (st := st) (outs := []) (st' := fin).
    - intros o s s' o' ((I & X & Y) & Z) M. destruct (micro_origin _ _ _ _ _ _ _ _ good I X Y M) as [X' Y'].
      refine (conj (conj _ (conj X' Y')) _).
      + apply (micro_inv cfg evs s s' o' I M).
      + eapply micro_prepares; eauto.
    - exact start_micros.
    - refine (conj (conj start_inv (conj start_J start_H)) _). intros p [].
  Qed.
End Run.
