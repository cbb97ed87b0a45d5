(** C58: transaction author agreements. *)
From Coq Require Import List Arith Bool Lia Sorted.
From Verif Require Import Taa_Model Taa_Spec.
Import ListNotations.

Lemma str_eqb_spec : forall a b, reflect (a = b) (str_eqb a b).
Proof. intros a b. unfold str_eqb. destruct (list_eq_dec Nat.eq_dec a b); constructor; assumption. Qed.
Lemma str_eqb_refl : forall a, str_eqb a a = true.
Proof. intros a. destruct (str_eqb_spec a a); congruence. Qed.
Lemma mget_mset_same : forall V k (v : V) d, mget k (mset k v d) = Some v.
Proof. intros V k v d. unfold mget, mset. cbn [find fst]. rewrite str_eqb_refl. reflexivity. Qed.
Lemma mget_mset_other : forall V k k' (v : V) d, k <> k' -> mget k' (mset k v d) = mget k' d.
Proof.
  intros V k k' v d N. unfold mget, mset. cbn [find fst]. destruct (str_eqb_spec k k') as [E|_]; [contradiction|].
  induction d as [|[q x] d IH]; cbn [filter find fst]; [reflexivity|]. destruct (str_eqb_spec q k) as [->|Q]; cbn [negb].
  - destruct (str_eqb_spec k k') as [E|_]; [contradiction | exact IH].
  - cbn [find fst]. destruct (str_eqb q k'); [reflexivity | exact IH].
Qed.
Lemma mget_disable : forall seq time d l, mget d (map (disable_one seq time) l) =
  match mget d l with Some t => Some (snd (disable_one seq time (d, t))) | None => None end.
Proof.
  intros seq time d l. unfold mget. induction l as [|[q x] l IH]; cbn [map find]; [reflexivity|].
  assert (F : fst (disable_one seq time (q, x)) = q) by (unfold disable_one; destruct (match t_retired x with None => true | Some r => _ end); reflexivity).
  rewrite F. cbn [fst]. destruct (str_eqb_spec q d) as [->|]; [reflexivity | exact IH].
Qed.
Lemma disable_same : forall seq time d t, t_digest t = d -> same_agreement t (snd (disable_one seq time (d, t))).
Proof. intros seq time d t E. unfold disable_one, same_agreement. destruct (match t_retired t with None => true | Some r => _ end); cbn; subst d; repeat split. Qed.

Section Props.
  Variable H : str -> str.
  Variables max_ts day_len before after : nat.
  Local Notation valid := (valid max_ts).
  Local Notation update_state := (update_state H).
  Local Notation apply_batch := (apply_batch H max_ts).
  Local Notation step := (step H max_ts).
  Local Notation run := (run H max_ts).
  Local Notation check := (do_taa_validation max_ts day_len before after).

  (** ** What holds of every state *)
  Definition W (c : conf) : Prop :=
    (forall d, c_latest c = Some d -> exists t, mget d (c_taas c) = Some t /\ t_retired t = None) /\
    (forall d, c_latest c = Some d -> c_aml c <> None) /\
    (forall v d, mget v (c_vers c) = Some d -> mget d (c_taas c) <> None) /\
    (forall d t, mget d (c_taas c) = Some t -> t_digest t = d /\ d = H (t_version t ++ t_text t) /\ t_ratified t <> None) /\
    (forall v m, mget v (c_amls c) = Some m -> a_version m = v) /\
    (forall m, c_aml c = Some m -> exists v, mget v (c_amls c) = Some m).
  Lemma W_empty : W empty_conf.
  Proof. repeat split; intros; discriminate. Qed.

  (** a valid request for an agreement of a new version, for one of a known version *)
  Lemma valid_taa : forall c v text rat ret b e t, valid c (mkW (WTaa v text rat ret) b e) t = true ->
    b = true /\ c_aml c <> None /\
    match mget v (c_vers c) with
    | None => exists x r, text = Some x /\ rat = Some r /\ ret = None /\ r <= t
    | Some d => exists y l, mget d (c_taas c) = Some y /\ c_latest c = Some l /\ l <> d /\ (forall x, text = Some x -> x = t_text y) /\ (forall r, rat = Some r -> t_ratified y = Some r)
    end.
  Proof.
    intros c v text rat ret b e t V. unfold Taa_Model.valid, authorized, dynamic_ok in V. cbn [w_op w_trustee] in V.
    apply andb_true_iff in V as [V D]. apply andb_true_iff in V as [_ V]. split; [exact V|]. destruct (c_aml c); [|discriminate D]. split; [discriminate|].
    cbn [get_taa_digest] in D. destruct (mget v (c_vers c)) as [d|].
    - unfold validate_update in D. destruct (mget d (c_taas c)) as [y|]; [|discriminate D]. apply andb_true_iff in D as [D1 D]. apply andb_true_iff in D1 as [D1 D2].
      destruct (c_latest c) as [l|]; [|discriminate D]. exists y, l. split; [reflexivity|]. split; [reflexivity|]. split; [intros ->; rewrite str_eqb_refl in D; discriminate D|]. split.
      + intros x ->. destruct (str_eqb_spec x (t_text y)); [assumption | discriminate D1].
      + intros r ->. unfold onat_eqb in D2. destruct (t_ratified y) as [q|]; [|discriminate D2]. apply Nat.eqb_eq in D2. congruence.
    - unfold validate_add in D. destruct text as [x|]; [|discriminate D]. destruct ret; [discriminate D|]. destruct rat as [r|]; [|discriminate D]. apply Nat.leb_le in D. exists x, r. auto.
  Qed.

  Lemma W_update : forall c r seq t, W c -> valid c r t = true -> W (update_state c (w_op r) seq t).
  Proof.
    intros c [[v text rat ret|v ms|] b] seq t (W1 & W2 & W3 & W4 & W5 & W6) V; cbn [w_op Taa_Model.update_state].
    - destruct (valid_taa _ _ _ _ _ _ _ _ V) as (_ & NA & X). cbn [get_taa_digest]. destruct (mget v (c_vers c)) as [d|] eqn:EV.
      + destruct X as (y & l & EY & EL & NE & X1 & X2). rewrite EY. unfold set_taa. cbn [c_latest c_vers c_taas c_aml c_amls].
        destruct (W4 d y EY) as (Y1 & Y2 & Y3). split; [|split; [|split; [|split; [|split; [exact W5 | exact W6]]]]].
        * cbn. intros d' E. assert (d' = l) by congruence. subst d'. rewrite mget_mset_other by congruence. exact (W1 l EL).
        * cbn. intros d' E. exact (W2 d' E).
        * cbn. intros v' d' E. destruct (list_eq_dec Nat.eq_dec d d') as [<-|N]; [rewrite mget_mset_same; discriminate | rewrite mget_mset_other by exact N; exact (W3 v' d' E)].
        * cbn. intros d' t' E. destruct (list_eq_dec Nat.eq_dec d d') as [<-|N].
          -- rewrite mget_mset_same in E. injection E as <-. cbn. split; [reflexivity|]. split; [exact Y2 | exact Y3].
          -- rewrite mget_mset_other in E by exact N. exact (W4 d' t' E).
      + destruct X as (x & rr & -> & -> & -> & LE). set (d := taa_digest H x v). unfold set_taa. cbn [c_latest c_vers c_taas c_aml c_amls].
        split; [|split; [|split; [|split; [|split; [exact W5 | exact W6]]]]].
        * cbn. intros d' E. injection E as <-. rewrite mget_mset_same. eexists. split; reflexivity.
        * cbn. intros d' E. exact NA.
        * cbn. intros v' d' E. destruct (list_eq_dec Nat.eq_dec d d') as [<-|N]; [rewrite mget_mset_same; discriminate|]. rewrite mget_mset_other by exact N.
          destruct (list_eq_dec Nat.eq_dec v v') as [<-|N']; [rewrite mget_mset_same in E; congruence|]. rewrite mget_mset_other in E by exact N'. exact (W3 v' d' E).
        * cbn. intros d' t' E. destruct (list_eq_dec Nat.eq_dec d d') as [<-|N].
          -- rewrite mget_mset_same in E. injection E as <-. cbn. split; [reflexivity|]. split; [reflexivity | discriminate].
          -- rewrite mget_mset_other in E by exact N. exact (W4 d' t' E).
    - unfold W. cbn [c_latest c_vers c_taas c_aml c_amls]. split; [exact W1|]. split; [discriminate|]. split; [exact W3|]. split; [exact W4|]. split.
      + intros v' m E. destruct (list_eq_dec Nat.eq_dec v v') as [<-|N]; [rewrite mget_mset_same in E; injection E as <-; reflexivity|]. rewrite mget_mset_other in E by exact N. exact (W5 v' m E).
      + intros m E. injection E as <-. exists v. apply mget_mset_same.
    - unfold W. cbn [c_latest c_vers c_taas c_aml c_amls]. split; [discriminate|]. split; [discriminate|]. split; [|split; [|split; [exact W5 | exact W6]]].
      + intros v d E. rewrite mget_disable. specialize (W3 v d E). destruct (mget d (c_taas c)); [discriminate | exact W3].
      + intros d t' E. rewrite mget_disable in E. destruct (mget d (c_taas c)) as [y|] eqn:EY; [|discriminate E]. injection E as <-. destruct (W4 d y EY) as (Y1 & Y2 & Y3).
        destruct (disable_same seq t d y Y1) as (S1 & S2 & S3 & S4). split; [exact (eq_trans (eq_sym S4) Y1)|]. split; [|intros Q; apply Y3; exact (eq_trans S3 Q)].
        transitivity (H (t_version y ++ t_text y)); [exact Y2|]. f_equal. f_equal; [exact S2 | exact S1].
  Qed.

  (** ** What changes keep *)
  Lemma same_refl : forall a, same_agreement a a.
  Proof. intros a. repeat split. Qed.
  Lemma same_trans : forall a b c, same_agreement a b -> same_agreement b c -> same_agreement a c.
  Proof. intros a b c (A1 & A2 & A3 & A4) (B1 & B2 & B3 & B4). repeat split; congruence. Qed.
  Lemma keeps_refl : forall c, keeps c c.
  Proof. intros c. split; [|auto]. intros v a E. exists a. split; [exact E | apply same_refl]. Qed.
  Lemma keeps_trans : forall a b c, keeps a b -> keeps b c -> keeps a c.
  Proof.
    intros a b c [A1 A2] [B1 B2]. split; [|auto]. intros v x E. destruct (A1 v x E) as (y & E' & S). destruct (B1 v y E') as (z & E'' & S').
    exists z. split; [exact E'' | exact (same_trans _ _ _ S S')].
  Qed.
  Variable A : str -> str -> Prop.
  Hypothesis SEP : separated H A.
  (** with [A]: every agreement recorded is one asked for, under its own version *)
  Definition I (c : conf) : Prop := W c /\ forall d t, mget d (c_taas c) = Some t -> A (t_version t) (t_text t) /\ mget (t_version t) (c_vers c) = Some d.
  Lemma I_empty : I empty_conf.
  Proof. split; [exact W_empty | intros; discriminate]. Qed.
  Lemma I_update : forall c r seq t, I c -> valid c r t = true -> (forall v x rat ret b e, r = mkW (WTaa v (Some x) rat ret) b e -> A v x) ->
    I (update_state c (w_op r) seq t) /\ keeps c (update_state c (w_op r) seq t).
  Proof.
    intros c r seq t [WC IC] V AK. pose proof (W_update c r seq t WC V) as WN. destruct WC as (W1 & W2 & W3 & W4 & W5 & W6).
    destruct r as [[v text rat ret|v ms|] b]; cbn [w_op Taa_Model.update_state] in *.
    - destruct (valid_taa _ _ _ _ _ _ _ _ V) as (_ & NA & X). cbn [get_taa_digest] in *. destruct (mget v (c_vers c)) as [d|] eqn:EV.
      + destruct X as (y & l & EY & EL & NE & X1 & X2). rewrite EY in *. split; [split; [exact WN|]|].
        * unfold set_taa. cbn [c_vers c_taas]. intros d' t' E. destruct (list_eq_dec Nat.eq_dec d d') as [<-|N].
          -- rewrite mget_mset_same in E. injection E as <-. cbn. exact (IC d y EY).
          -- rewrite mget_mset_other in E by exact N. exact (IC d' t' E).
        * split; [|auto]. unfold agreement, set_taa. cbn [c_vers c_taas]. intros v' a E. destruct (mget v' (c_vers c)) as [d'|]; [|discriminate E].
          destruct (list_eq_dec Nat.eq_dec d d') as [<-|N].
          -- rewrite mget_mset_same. eexists. split; [reflexivity|]. assert (a = y) by congruence. subst a. unfold same_agreement. cbn. repeat split. exact (proj1 (W4 d y EY)).
          -- rewrite mget_mset_other by exact N. exists a. split; [exact E | apply same_refl].
      + destruct X as (x & rr & -> & -> & -> & LE). assert (AV : A v x) by (eapply (AK v x (Some rr) None b); reflexivity).
        set (d := taa_digest H x v) in *.
        assert (NEW : forall t', mget d (c_taas c) = Some t' -> False).
        { intros t' E. destruct (W4 d t' E) as (_ & D & _). destruct (IC d t' E) as [AT VT]. assert (t_version t' = v).
          { apply (SEP (t_version t') (t_text t') v x AT AV). rewrite <- D. reflexivity. } congruence. }
        split; [split; [exact WN|]|].
        * unfold set_taa. cbn [c_vers c_taas]. intros d' t' E. destruct (list_eq_dec Nat.eq_dec d d') as [<-|N].
          -- rewrite mget_mset_same in E. injection E as <-. cbn. split; [exact AV | apply mget_mset_same].
          -- rewrite mget_mset_other in E by exact N. destruct (IC d' t' E) as [A1 A2]. split; [exact A1|]. rewrite mget_mset_other; [exact A2 | intros VE; rewrite <- VE in A2; congruence].
        * split; [|auto]. unfold agreement, set_taa. cbn [c_vers c_taas]. intros v' a E. destruct (mget v' (c_vers c)) as [d'|] eqn:EV'; [|discriminate E].
          rewrite mget_mset_other by (intros VE; rewrite <- VE in EV'; congruence). rewrite EV'. rewrite mget_mset_other by (intros VE; rewrite <- VE in E; exact (NEW a E)). exists a. split; [exact E | apply same_refl].
    - split; [split; [exact WN | exact IC]|]. split; [intros v' a E; exists a; split; [exact E | apply same_refl]|].
      unfold mechanisms. cbn [c_amls]. intros v' m E. rewrite mget_mset_other; [exact E|]. intros <-.
      unfold Taa_Model.valid, dynamic_ok in V. cbn [w_op get_taa_aml_data] in V. rewrite E in V. apply andb_true_iff in V as [_ V]. discriminate V.
    - split; [split; [exact WN|]|].
      + cbn [c_vers c_taas]. intros d t' E. rewrite mget_disable in E. destruct (mget d (c_taas c)) as [y|] eqn:EY; [|discriminate E]. injection E as <-.
        destruct (disable_same seq t d y (proj1 (W4 d y EY))) as (S1 & S2 & _ & _). destruct (IC d y EY) as [I1 I2].
        split; [rewrite S1, S2 in I1; exact I1 | rewrite S2 in I2; exact I2].
      + split; [|auto]. unfold agreement. cbn [c_vers c_taas]. intros v a E. destruct (mget v (c_vers c)) as [d|]; [|discriminate E]. rewrite mget_disable, E.
        eexists. split; [reflexivity|]. apply disable_same. exact (proj1 (W4 d a E)).
  Qed.
  Lemma apply_batch_I : forall rs cs t, I (fst cs) -> (forall v x rat ret b e, In (mkW (WTaa v (Some x) rat ret) b e) rs -> A v x) ->
    I (fst (apply_batch cs rs t)) /\ keeps (fst cs) (fst (apply_batch cs rs t)).
  Proof.
    induction rs as [|r rs IH]; intros cs t IC AK; cbn [Taa_Model.apply_batch]; [split; [exact IC | apply keeps_refl]|].
    assert (AK' : forall v x rat ret b e, In (mkW (WTaa v (Some x) rat ret) b e) rs -> A v x) by (intros v x rat ret b e J; apply (AK v x rat ret b e); right; exact J).
    destruct (valid (fst cs) r t) eqn:V; [|exact (IH cs t IC AK')].
    destruct (I_update (fst cs) r (S (snd cs)) t IC V) as [I1 K1]; [intros v x rat ret b e ->; apply (AK v x rat ret b e); left; reflexivity|].
    destruct (IH (update_state (fst cs) (w_op r) (S (snd cs)) t, S (snd cs)) t I1 AK') as [I2 K2]. split; [exact I2 | exact (keeps_trans _ _ _ K1 K2)].
  Qed.

  (** the states of a node, oldest first, each keeping what those before it say *)
  Definition Chain (n : node) : Prop := StronglySorted keeps (states n) /\ Forall I (states n).
  Lemma last_in : forall (T : Type) (l : list T) d, l = [] /\ last l d = d \/ In (last l d) l.
  Proof.
    induction l as [|x l IH]; intros d; [left; auto|]. right. destruct l as [|y l]; [left; reflexivity|]. right. destruct (IH d) as [[E _]|J]; [discriminate E | exact J].
  Qed.
  Lemma head_in : forall n, In (fst (head n)) (states n).
  Proof. intros [c l]. unfold head, states. cbn [n_com n_states]. apply in_map. destruct (last_in _ l c) as [[-> ->]|J]; [left; reflexivity | right; exact J]. Qed.
  Lemma ss_app_one : forall (l : list conf) x, StronglySorted keeps l -> (forall y, In y l -> keeps y x) -> StronglySorted keeps (l ++ [x]).
  Proof.
    induction l as [|y l IH]; intros x S K; cbn [app]; [constructor; constructor|]. inversion S as [|? ? S1 S2]; subst. constructor.
    - apply IH; [exact S1 | intros z J; apply K; right; exact J].
    - apply Forall_app. split; [exact S2|]. constructor; [apply K; left; reflexivity | constructor].
  Qed.
  Lemma ss_last : forall (l : list conf) d y, StronglySorted keeps (d :: l) -> In y (d :: l) -> keeps y (last l d).
  Proof.
    induction l as [|x l IH]; intros d y S J.
    - destruct J as [<-|[]]. apply keeps_refl.
    - inversion S as [|? ? S1 S2]; subst. assert (E : last (x :: l) d = last l x).
      { clear. revert x d. induction l as [|z l IH]; intros x d; [reflexivity|]. change (last (x :: z :: l) d) with (last (z :: l) d). rewrite (IH z d), (IH z x). reflexivity. }
      rewrite E. destruct J as [<-|J]; [|exact (IH x y S1 J)]. rewrite Forall_forall in S2. apply S2. destruct (last_in _ l x) as [[_ ->]|L]; [left; reflexivity | right; exact L].
  Qed.
  Lemma last_map : forall (l : list (conf * nat)) d, last (map fst l) (fst d) = fst (last l d).
  Proof. induction l as [|x l IH]; intros d; [reflexivity|]. cbn [map]. destruct l as [|y l]; [reflexivity|]. exact (IH d). Qed.
  Lemma removelast_incl : forall (T : Type) (l : list T) x, In x (removelast l) -> In x l.
  Proof. induction l as [|y l IH]; intros x J; [exact J|]. destruct l as [|z l]; [destruct J|]. destruct J as [<-|J]; [left; reflexivity | right; exact (IH x J)]. Qed.
  Lemma removelast_ss : forall l : list (conf * nat), StronglySorted keeps (map fst l) -> StronglySorted keeps (map fst (removelast l)).
  Proof.
    induction l as [|x l IH]; intros S; [exact S|]. destruct l as [|y l]; [constructor|]. cbn [map] in S. inversion S as [|? ? S1 S2]; subst.
    change (removelast (x :: y :: l)) with (x :: removelast (y :: l)). cbn [map]. constructor; [apply IH; exact S1|].
    apply Forall_forall. intros z J. rewrite Forall_forall in S2. apply S2. apply in_map_iff in J as (q & <- & J). apply removelast_incl in J. apply (in_map fst) in J. exact J.
  Qed.
  Lemma step_chain : forall n e, Chain n -> asks A [e] -> Chain (step n e) /\ (forall c, In c (states (step n e)) -> keeps (fst (n_com n)) c) /\ keeps (fst (n_com n)) (fst (n_com (step n e))).
  Proof.
    intros n e [S F] AK.
    assert (CK : forall c, In c (states n) -> keeps (fst (n_com n)) c).
    { intros c J. unfold states in S, J. cbn [map] in S, J. inversion S as [|? ? S1 S2]; subst. destruct J as [<-|J]; [apply keeps_refl|]. rewrite Forall_forall in S2. exact (S2 c J). }
    destruct e as [rs t| |]; cbn [Taa_Model.step].
    - assert (AK' : forall v x rat ret b e, In (mkW (WTaa v (Some x) rat ret) b e) rs -> A v x) by (intros v x rat ret b e J; apply (AK rs t v x rat ret b e); [left; reflexivity | exact J]).
      assert (IH : I (fst (head n))) by (rewrite Forall_forall in F; apply F; apply head_in).
      destruct (apply_batch_I rs (head n) t IH AK') as [IN KN].
      assert (ST : states (mkN (n_com n) (n_states n ++ [apply_batch (head n) rs t])) = states n ++ [fst (apply_batch (head n) rs t)]).
      { unfold states. cbn [n_com n_states map]. rewrite map_app. reflexivity. }
      split; [|split; [|apply keeps_refl]].
      + split; rewrite ST.
        * apply ss_app_one; [exact S|]. intros y J. apply (keeps_trans _ (fst (head n))); [|exact KN]. unfold states in S, J. cbn [map] in S, J.
          pose proof (ss_last (map fst (n_states n)) (fst (n_com n)) y S J) as L. rewrite last_map in L. exact L.
        * apply Forall_app. split; [exact F | constructor; [exact IN | constructor]].
      + intros c J. rewrite ST in J. apply in_app_or in J as [J|[<-|[]]]; [exact (CK c J)|]. apply (keeps_trans _ (fst (head n))); [apply CK; apply head_in | exact KN].
    - destruct n as [com [|c l]]; cbn [n_states n_com]; [split; [split; assumption | split; [exact CK | apply keeps_refl]]|].
      unfold states in *. cbn [n_com n_states map] in *. inversion S as [|? ? S1 S2]; subst. inversion F as [|? ? F1 F2]; subst. rewrite Forall_forall in S2.
      split; [split; assumption|]. split; [intros c' J; apply S2; exact J | apply S2; left; reflexivity].
    - unfold Chain, states in *. cbn [n_com n_states map] in *. inversion S as [|? ? S1 S2]; subst. inversion F as [|? ? F1 F2]; subst. rewrite Forall_forall in S2, F2.
      assert (IN : forall z, In z (map fst (removelast (n_states n))) -> In z (map fst (n_states n))).
      { intros z J. apply in_map_iff in J as (q & <- & J). apply removelast_incl in J. apply in_map. exact J. }
      split; [split|].
      + constructor; [apply removelast_ss; exact S1 | apply Forall_forall; intros z J; apply S2; apply IN; exact J].
      + constructor; [exact F1 | apply Forall_forall; intros z J; apply F2; apply IN; exact J].
      + split; [|apply keeps_refl]. intros c [<-|J]; [apply keeps_refl | apply S2; apply IN; exact J].
  Qed.
  Lemma run_chain : forall es n, Chain n -> asks A es -> Chain (run n es) /\ forall c, In c (states (run n es)) -> keeps (fst (n_com n)) c.
  Proof.
    induction es as [|e es IH]; intros n C AK; cbn [Taa_Model.run fold_left].
    - split; [exact C|]. intros c J. destruct C as [S _]. unfold states in S, J. cbn [map] in S, J. inversion S as [|? ? S1 S2]; subst.
      destruct J as [<-|J]; [apply keeps_refl|]. rewrite Forall_forall in S2. exact (S2 c J).
    - destruct (step_chain n e C) as (C1 & K1 & K2); [intros rs t v x rat ret b e' [J|[]]; apply (AK rs t v x rat ret b e'); left; exact J|].
      destruct (IH (step n e) C1) as [C2 K3]; [intros rs t v x rat ret b e' J; apply (AK rs t v x rat ret b e'); right; exact J|].
      split; [exact C2|]. intros c J. exact (keeps_trans _ _ _ K2 (K3 c J)).
  Qed.
  Lemma init_chain : Chain init.
  Proof. split; cbn; [constructor; constructor | constructor; [exact I_empty | constructor]]. Qed.

  (** *** C58: what is committed stays as it was written: for any history, then any further one, every
      later state has every committed version of the agreement with its text, ratification date and
      digest, and every committed version of the acceptance mechanisms. *)
  Theorem C58_unchanged_partial : forall es es', asks A (es ++ es') -> forall c, In c (states (run init (es ++ es'))) -> keeps (fst (n_com (run init es))) c.
  Proof.
    intros es es' AK c J. unfold Taa_Model.run in J. rewrite fold_left_app in J.
    destruct (run_chain es init init_chain) as [C _]; [intros rs t v x rat ret b e' Q; apply (AK rs t v x rat ret b e'); apply in_or_app; left; exact Q|].
    apply (run_chain es' (run init es) C); [intros rs t v x rat ret b e' Q; apply (AK rs t v x rat ret b e'); apply in_or_app; right; exact Q | exact J].
  Qed.
  (** *** and so does what is applied but not committed, as long as it is not rejected *)
  Theorem C58_order_partial : forall es, asks A es -> StronglySorted keeps (states (run init es)).
  Proof. intros es AK. exact (proj1 (proj1 (run_chain es init init_chain AK))). Qed.
  (** *** the agreement found by its digest is that of its version *)
  Theorem C58_digest_partial : forall es c d t, asks A es -> In c (states (run init es)) -> mget d (c_taas c) = Some t ->
    d = H (t_version t ++ t_text t) /\ agreement c (t_version t) = Some t.
  Proof.
    intros es c d t AK J E. destruct (run_chain es init init_chain AK) as [[_ F] _]. rewrite Forall_forall in F. destruct (F c J) as [(_ & _ & _ & W4 & _) IC].
    split; [exact (proj1 (proj2 (W4 d t E)))|]. unfold agreement. rewrite (proj2 (IC d t E)). exact E.
  Qed.
End Props.

Section Always.
  Variable H : str -> str.
  Variables max_ts day_len before after : nat.
  Local Notation valid := (valid max_ts).
  Local Notation update_state := (update_state H).
  Local Notation apply_batch := (apply_batch H max_ts).
  Local Notation step := (step H max_ts).
  Local Notation run := (run H max_ts).
  Local Notation check := (do_taa_validation max_ts day_len before after).

  Lemma apply_batch_W : forall rs cs t, W H (fst cs) -> W H (fst (apply_batch cs rs t)).
  Proof.
    induction rs as [|r rs IH]; intros cs t WC; cbn [Taa_Model.apply_batch]; [exact WC|].
    destruct (valid (fst cs) r t) eqn:V; [|exact (IH cs t WC)]. apply IH. exact (W_update H max_ts _ r _ t WC V).
  Qed.
  Lemma run_W : forall es n, Forall (W H) (states n) -> Forall (W H) (states (run n es)).
  Proof.
    induction es as [|e es IH]; intros n F; cbn [Taa_Model.run fold_left]; [exact F|]. apply IH. destruct e as [rs t| |]; cbn [Taa_Model.step].
    - unfold states. cbn [n_com n_states map]. rewrite map_app. change (Forall (W H) (states n ++ [fst (apply_batch (head n) rs t)])). apply Forall_app. split; [exact F|].
      constructor; [|constructor]. apply apply_batch_W. rewrite Forall_forall in F. apply F. apply head_in.
    - destruct n as [com [|c l]]; cbn [n_states n_com]; [exact F|]. unfold states in *. cbn [n_com n_states map] in *. inversion F; subst. assumption.
    - unfold states in *. cbn [n_com n_states map] in *. inversion F as [|? ? F1 F2]; subst. constructor; [exact F1|]. apply Forall_forall. intros z J.
      rewrite Forall_forall in F2. apply F2. apply in_map_iff in J as (q & <- & J). apply removelast_incl in J. apply in_map. exact J.
  Qed.
  Lemma reach_W : forall es c, In c (states (run init es)) -> W H c.
  Proof. intros es c J. assert (F : Forall (W H) (states (run init es))) by (apply run_W; constructor; [apply W_empty | constructor]).
    rewrite Forall_forall in F. exact (F c J). Qed.

  (** *** C58: the agreement in force exists, is not retired, and comes with acceptance mechanisms *)
  Theorem C58_latest : forall es c d, In c (states (run init es)) -> c_latest c = Some d ->
    (exists t, mget d (c_taas c) = Some t /\ t_retired t = None) /\ exists v m, c_aml c = Some m /\ mechanisms c v = Some m.
  Proof.
    intros es c d J E. destruct (reach_W es c J) as (W1 & W2 & _ & _ & W5 & W6). split; [exact (W1 d E)|].
    destruct (c_aml c) as [m|] eqn:M; [|destruct (W2 d E eq_refl)]. destruct (W6 m eq_refl) as (v & X). exists v, m. split; [reflexivity | exact X].
  Qed.

  (** *** C58: only trustees write agreements and mechanisms; a new version is not dated in the future
      of its batch; the agreement in force cannot be retired *)
  Theorem C58_written : forall c v text rat ret b e t, valid c (mkW (WTaa v text rat ret) b e) t = true ->
    b = true /\
    match mget v (c_vers c) with
    | None => exists x r, text = Some x /\ rat = Some r /\ r <= t
    | Some d => exists y, mget d (c_taas c) = Some y /\ c_latest c <> Some d /\ (forall x, text = Some x -> x = t_text y) /\ (forall r, rat = Some r -> t_ratified y = Some r)
    end.
  Proof.
    intros c v text rat ret b e t V. destruct (valid_taa max_ts _ _ _ _ _ _ _ _ V) as (B & _ & X). split; [exact B|]. destruct (mget v (c_vers c)) as [d|].
    - destruct X as (y & l & E & L & N & X1 & X2). exists y. split; [exact E|]. split; [congruence|]. split; assumption.
    - destruct X as (x & r & -> & -> & -> & L). exists x, r. auto.
  Qed.
  Theorem C58_aml_written : forall c v ms b e t, valid c (mkW (WAml v ms) b e) t = true -> b = true /\ (e = true -> ms <> []) /\ mechanisms c v = None.
  Proof.
    intros c v ms b e t V. unfold Taa_Model.valid, static_ok, authorized, dynamic_ok, mechanisms in *. cbn [w_op w_trustee w_client get_taa_aml_data] in V.
    apply andb_true_iff in V as [V D]. apply andb_true_iff in V as [S V]. split; [exact V|]. split; [intros -> ->; discriminate S|]. destruct (mget v (c_amls c)); [discriminate D | reflexivity].
  Qed.

  (** *** C58: disabling retires every agreement at once *)
  Theorem C58_disabled : forall es c seq t d y, In c (states (run init es)) -> 0 < t -> mget d (c_taas (update_state c WDisable seq t)) = Some y ->
    c_latest (update_state c WDisable seq t) = None /\ exists r, t_retired y = Some r /\ r <= t.
  Proof.
    intros es c seq t d y J P E. split; [reflexivity|]. cbn [Taa_Model.update_state c_taas] in E. rewrite mget_disable in E. destruct (mget d (c_taas c)) as [x|]; [|discriminate E].
    injection E as <-. unfold disable_one. destruct (t_retired x) as [r|] eqn:R.
    - destruct (Nat.ltb_spec t r); cbn [snd t_retired]; [destruct t; [lia|]; exists (S t); auto | exists r; auto].
    - cbn [snd t_retired]. destruct t; [lia|]. exists (S t). auto.
  Qed.

  (** *** C58: exactly which requests pass on a ledger that needs acceptance *)
  Lemma retired_pos : forall es c d t q, In c (states (run init es)) -> mget d (c_taas c) = Some t -> t_retired t = Some q -> 0 < q.
  Proof.
    intros es c d t q J. revert d t q.
    assert (U : forall c r seq t, (forall d x q, mget d (c_taas c) = Some x -> t_retired x = Some q -> 0 < q) ->
      forall d x q, mget d (c_taas (update_state c (w_op r) seq t)) = Some x -> t_retired x = Some q -> 0 < q).
    { intros c0 [[v text rat ret|v ms|] b] seq t P d x q; cbn [w_op Taa_Model.update_state].
      - destruct (get_taa_digest c0 (Some v)) as [dd|].
        + destruct (mget dd (c_taas c0)) as [y|]; [|exact (P d x q)]. unfold set_taa. cbn [c_taas]. destruct (list_eq_dec Nat.eq_dec dd d) as [<-|N].
          * rewrite mget_mset_same. intros E R. injection E as <-. cbn [t_retired] in R. destruct ret as [[|k]|]; [discriminate R | injection R as <-; lia | discriminate R].
          * rewrite mget_mset_other by exact N. exact (P d x q).
        + unfold set_taa. cbn [c_taas]. set (dd := taa_digest _ _ _). destruct (list_eq_dec Nat.eq_dec dd d) as [<-|N].
          * rewrite mget_mset_same. intros E R. injection E as <-. discriminate R.
          * rewrite mget_mset_other by exact N. exact (P d x q).
      - exact (P d x q).
      - cbn [c_taas]. rewrite mget_disable. destruct (mget d (c_taas c0)) as [y|] eqn:EY; [|discriminate]. intros E R. injection E as <-. unfold disable_one in R.
        destruct (match t_retired y with None => true | Some r => t <? r end); cbn [snd t_retired] in R; [destruct t; [discriminate R | injection R as <-; lia] | exact (P d y q EY R)]. }
    assert (B : forall rs cs t, (forall d x q, mget d (c_taas (fst cs)) = Some x -> t_retired x = Some q -> 0 < q) ->
      forall d x q, mget d (c_taas (fst (apply_batch cs rs t))) = Some x -> t_retired x = Some q -> 0 < q).
    { induction rs as [|r rs IH]; intros cs t P; cbn [Taa_Model.apply_batch]; [exact P|]. destruct (valid (fst cs) r t); [|exact (IH cs t P)].
      apply IH. cbn [fst]. exact (U (fst cs) r (S (snd cs)) t P). }
    assert (R : forall es n, (forall c, In c (states n) -> forall d x q, mget d (c_taas c) = Some x -> t_retired x = Some q -> 0 < q) ->
      forall c, In c (states (run n es)) -> forall d x q, mget d (c_taas c) = Some x -> t_retired x = Some q -> 0 < q).
    { clear J es c. induction es as [|e es IH]; intros n P; cbn [Taa_Model.run fold_left]; [exact P|]. apply IH. destruct e as [rs t| |]; cbn [Taa_Model.step].
      - unfold states. cbn [n_com n_states map]. rewrite map_app. intros c J. change (In c (states n ++ [fst (apply_batch (head n) rs t)])) in J.
        apply in_app_or in J as [J|[<-|[]]]; [exact (P c J)|]. apply B. apply P. apply head_in.
      - destruct n as [com [|c l]]; cbn [n_states n_com]; [exact P|]. intros c' J. apply P. right. exact J.
      - intros c J. apply P. unfold states in *. cbn [n_com n_states map] in *. destruct J as [<-|J]; [left; reflexivity|]. right.
        apply in_map_iff in J as (q & <- & J). apply removelast_incl in J. apply in_map. exact J. }
    apply (R es init); [|exact J]. intros c0 [<-|[]] d x q E. discriminate E.
  Qed.
  Theorem C58_accepted : forall es c com acc pp_time, In c (states (run init es)) ->
    (check true c com acc pp_time = VOk <-> c_latest c = None \/ acceptable max_ts day_len before after c com acc pp_time).
  Proof.
    intros es c com acc pp_time J. destruct (reach_W es c J) as (W1 & _). unfold do_taa_validation. cbn [negb].
    destruct (c_latest c) as [d|] eqn:L; [|cbn [negb]; split; [left; reflexivity | reflexivity]].
    destruct (W1 d eq_refl) as (t0 & E0 & _). rewrite E0. cbn [negb]. unfold acceptable. split.
    - intros V. right. destruct acc as [a|]; [|discriminate V]. destruct (mget (ac_digest a) (c_taas c)) as [t|] eqn:E; [|discriminate V].
      destruct (match t_retired t with Some r => _ | None => false end) eqn:R; [discriminate V|]. destruct (Nat.ltb_spec max_ts (ac_time a)); [discriminate V|].
      destruct (Nat.eqb_spec (ac_time a mod day_len) 0) as [M|]; [|discriminate V]. cbn [negb] in V. destruct (t_ratified t) as [r|] eqn:T; [|discriminate V].
      destruct (Nat.ltb_spec (day day_len (ac_time a)) (day day_len (r - before))); [discriminate V|]. destruct (Nat.ltb_spec (day day_len (pp_time + after)) (day day_len (ac_time a))); [discriminate V|]. cbn [orb] in V.
      destruct (c_aml com) as [m|]; [|discriminate V]. destruct (existsb (str_eqb (ac_mech a)) (a_mechs m)) eqn:X; [|discriminate V].
      apply existsb_exists in X as (x & IX & X). destruct (str_eqb_spec (ac_mech a) x) as [XE|]; [|discriminate X]. rewrite <- XE in IX.
      exists a, t, r, m. split; [reflexivity|]. split; [exact E|]. split; [|unfold day in *; repeat split; auto; lia].
      intros q Q. rewrite Q in R. pose proof (retired_pos es c (ac_digest a) t q J E Q). destruct (Nat.eqb_spec q 0); [lia|]. cbn [negb andb] in R. apply Nat.ltb_ge in R. exact R.
    - intros [F|(a & t & r & m & -> & E & R & B & M & T & [D1 D2] & EM & IM)]; [discriminate F|]. rewrite E.
      assert (RR : (match t_retired t with Some q => negb (q =? 0) && (q <? pp_time) | None => false end) = false).
      { destruct (t_retired t) as [q|]; [|reflexivity]. specialize (R q eq_refl). apply Nat.ltb_ge in R. rewrite R. apply andb_false_r. }
      rewrite RR. apply Nat.ltb_ge in B. rewrite B, M, T. cbn [Nat.eqb negb]. unfold day.
      apply Nat.ltb_ge in D1. apply Nat.ltb_ge in D2. rewrite D1, D2. cbn [orb]. rewrite EM.
      assert (X : existsb (str_eqb (ac_mech a)) (a_mechs m) = true) by (apply existsb_exists; exists (ac_mech a); split; [exact IM | apply str_eqb_refl]). rewrite X. reflexivity.
  Qed.

  (** *** C58: on a ledger that needs no acceptance exactly the requests without one pass *)
  Theorem C58_not_required : forall c com acc pp_time, check false c com acc pp_time = VOk <-> acc = None.
  Proof. intros c com acc pp_time. unfold do_taa_validation. cbn [negb]. destruct acc; split; intros E; try discriminate E; reflexivity. Qed.

  (** *** C58: two nodes that have applied the same batches give the same verdict, however many of them
      each has committed, if those batches change no acceptance mechanisms. *)
  Lemma last_cons : forall (T : Type) (l : list T) x d, last (x :: l) d = last l x.
  Proof. induction l as [|z l IH]; intros x d; [reflexivity|]. change (last (x :: z :: l) d) with (last (z :: l) d). rewrite (IH z d), (IH z x). reflexivity. Qed.
  Lemma step_head : forall n e, e <> EReject -> head (step n e) = match e with EBatch rs t => apply_batch (head n) rs t | _ => head n end.
  Proof.
    intros n e N. destruct e as [rs t| |]; cbn [Taa_Model.step]; [|destruct n as [com [|c l]]; cbn [n_states n_com]; [reflexivity|]|congruence].
    - unfold head at 1. cbn [n_states n_com]. apply last_last.
    - unfold head. cbn [n_states n_com]. symmetry. apply last_cons.
  Qed.
  Definition heads (h : conf * nat) (es : list event) : conf * nat := fold_left (fun h e => match e with EBatch rs t => apply_batch h rs t | _ => h end) es h.
  Lemma run_head : forall es n, no_rejects es -> head (run n es) = heads (head n) (batches es).
  Proof.
    induction es as [|e es IH]; intros n NR; cbn [Taa_Model.run fold_left]; [reflexivity|]. fold (run (step n e) es). rewrite IH by (intros J; apply NR; right; exact J).
    rewrite step_head by (intros ->; apply NR; left; reflexivity). destruct e; reflexivity.
  Qed.
  Lemma batch_aml : forall rs cs t, (forall v ms b e, ~ In (mkW (WAml v ms) b e) rs) -> c_aml (fst (apply_batch cs rs t)) = c_aml (fst cs).
  Proof.
    induction rs as [|[o b e] rs IH]; intros cs t N; cbn [Taa_Model.apply_batch]; [reflexivity|].
    assert (N' : forall v ms b e, ~ In (mkW (WAml v ms) b e) rs) by (intros v ms b' e' J; apply (N v ms b' e'); right; exact J).
    destruct (valid (fst cs) (mkW o b e) t); rewrite (IH _ t N'); [|reflexivity]. cbn [fst w_op Taa_Model.update_state].
    destruct o as [v text rat ret|v ms|]; [|destruct (N v ms b e); left; reflexivity|reflexivity].
    unfold Taa_Model.update_state. destruct (get_taa_digest (fst cs) (Some v)) as [d|]; [destruct (mget d (c_taas (fst cs))); reflexivity | reflexivity].
  Qed.
  Lemma run_aml : forall es n m, no_aml es -> (forall c, In c (states n) -> c_aml c = m) -> forall c, In c (states (run n es)) -> c_aml c = m.
  Proof.
    induction es as [|e es IH]; intros n m NA P; cbn [Taa_Model.run fold_left]; [exact P|]. apply IH; [intros rs t v ms b e' J; apply (NA rs t v ms b e'); right; exact J|].
    destruct e as [rs t| |]; cbn [Taa_Model.step].
    - unfold states. cbn [n_com n_states map]. rewrite map_app. intros c J. change (In c (states n ++ [fst (apply_batch (head n) rs t)])) in J.
      apply in_app_or in J as [J|[<-|[]]]; [exact (P c J)|]. rewrite batch_aml; [apply P; apply head_in|]. intros v ms b e'. apply (NA rs t). left. reflexivity.
    - destruct n as [com [|c l]]; cbn [n_states n_com]; [exact P|]. intros c' J. apply P. right. exact J.
    - intros c J. apply P. unfold states in *. cbn [n_com n_states map] in *. destruct J as [<-|J]; [left; reflexivity|]. right.
      apply in_map_iff in J as (q & <- & J). apply removelast_incl in J. apply in_map. exact J.
  Qed.
  Theorem C58_agree_partial : forall n es1 es2, n_states n = [] -> batches es1 = batches es2 -> no_rejects es1 -> no_rejects es2 -> no_aml es1 -> no_aml es2 ->
    let n1 := run n es1 in let n2 := run n es2 in
    head n1 = head n2 /\ forall required acc t, check required (fst (head n1)) (fst (n_com n1)) acc t = check required (fst (head n2)) (fst (n_com n2)) acc t.
  Proof.
    intros n es1 es2 E B R1 R2 A1 A2 n1 n2. unfold n1, n2. assert (HE : head (run n es1) = head (run n es2)) by (rewrite !run_head by assumption; rewrite B; reflexivity).
    split; [exact HE|]. intros required acc t. rewrite HE.
    assert (P : forall c, In c (states n) -> c_aml c = c_aml (fst (n_com n))) by (unfold states; rewrite E; intros c [<-|[]]; reflexivity).
    assert (M1 : c_aml (fst (n_com (run n es1))) = c_aml (fst (n_com n))) by (apply (run_aml es1 n _ A1 P); left; reflexivity).
    assert (M2 : c_aml (fst (n_com (run n es2))) = c_aml (fst (n_com n))) by (apply (run_aml es2 n _ A2 P); left; reflexivity).
    unfold do_taa_validation. rewrite M1, M2. reflexivity.
  Qed.
End Always.

(** ** Examples and refutations. Strings: "1" is [1], "on" is [7]; the digest is the string itself. *)
Definition idH : str -> str := fun x => x.
Definition xrun := run idH 1000.
Definition xcheck := do_taa_validation 1000 10 2 2.
Definition tr (o : wop) : wreq := mkW o true true.
(** mechanisms, an agreement, a second one, the first retired at 95, one more that is refused *)
Definition x_es : list event :=
  [EBatch [tr (WAml [1] [[7]; [8]])] 50; ECommit; EBatch [tr (WTaa [1] (Some [5; 5]) (Some 48) None)] 60; ECommit;
   EBatch [tr (WTaa [2] (Some [6]) (Some 70) None); tr (WTaa [1] None None (Some 95)); mkW (WTaa [3] (Some [9]) (Some 70) None) false true] 80].
Definition x_n := xrun init x_es.
Definition x_head := fst (head x_n).
Definition x_com := fst (n_com x_n).

Definition x_A (v t : str) : Prop := (v = [1] /\ t = [5; 5]) \/ (v = [2] /\ t = [6]) \/ (v = [3] /\ t = [9]).
Lemma x_sep : separated idH x_A.
Proof. intros v1 t1 v2 t2 [[-> ->]|[[-> ->]|[-> ->]]] [[-> ->]|[[-> ->]|[-> ->]]] E; cbn in E; congruence. Qed.
Lemma x_asks : asks x_A x_es.
Proof.
  intros rs t v text rat ret b e J K. unfold x_A. cbn in J. repeat (destruct J as [J|J]; [try discriminate J; injection J as <- <-; cbn in K;
    repeat (destruct K as [K|K]; [try discriminate K; injection K as <- <- <- <- <- <-; auto|]); destruct K|]). destruct J.
Qed.
Example C58_unchanged_ex : forall c, In c (states (xrun init x_es)) -> keeps (fst (n_com (xrun init (firstn 4 x_es)))) c.
Proof. intros c. exact (C58_unchanged_partial idH 1000 x_A x_sep (firstn 4 x_es) (skipn 4 x_es) x_asks c). Qed.
Example C58_states_ex : length (states x_n) = 2 /\
  agreement x_com [1] = Some (mkTaa [5; 5] [1] (Some 48) [1; 5; 5] None 2 60) /\ agreement x_head [1] = Some (mkTaa [5; 5] [1] (Some 48) [1; 5; 5] (Some 95) 4 80) /\
  agreement x_head [2] = Some (mkTaa [6] [2] (Some 70) [2; 6] None 3 80) /\ agreement x_head [3] = None /\ c_latest x_head = Some [2; 6] /\ c_latest x_com = Some [1; 5; 5].
Proof. vm_compute. repeat split. Qed.
Example C58_latest_ex : (exists t, mget [2; 6] (c_taas x_head) = Some t /\ t_retired t = None) /\ exists v m, c_aml x_head = Some m /\ mechanisms x_head v = Some m.
Proof. apply (C58_latest idH 1000 x_es x_head [2; 6]); [apply head_in | vm_compute; reflexivity]. Qed.
(** an acceptance of each agreement passes; the first one only until it is retired; the day counts *)
Example C58_accepted_ex :
  xcheck true x_head x_com (Some (mkAcc [2; 6] [8] 80)) 85 = VOk /\ xcheck true x_head x_com (Some (mkAcc [1; 5; 5] [7] 40)) 95 = VOk /\
  xcheck true x_head x_com (Some (mkAcc [1; 5; 5] [7] 80)) 96 = VRetired /\ xcheck true x_head x_com (Some (mkAcc [2; 6] [8] 85)) 85 = VTooPrecise /\
  xcheck true x_head x_com (Some (mkAcc [2; 6] [8] 90)) 85 = VWrongTime /\ xcheck true x_head x_com (Some (mkAcc [2; 6] [8] 90)) 88 = VOk /\
  xcheck true x_head x_com (Some (mkAcc [2; 6] [9] 80)) 85 = VBadMech /\ xcheck true x_head x_com None 85 = VMissing /\ xcheck true x_head x_com (Some (mkAcc [3; 9] [8] 80)) 85 = VNotFound.
Proof. vm_compute. repeat split. Qed.
Example C58_acceptable_ex : acceptable 1000 10 2 2 x_head x_com (Some (mkAcc [2; 6] [8] 80)) 85.
Proof.
  destruct (proj1 (C58_accepted idH 1000 10 2 2 x_es x_head x_com (Some (mkAcc [2; 6] [8] 80)) 85 (head_in x_n))) as [E|E]; [vm_compute; reflexivity | vm_compute in E; discriminate E | exact E].
Qed.
Example C58_disabled_ex :
  let n := xrun x_n [EBatch [tr WDisable] 90] in c_latest (fst (head n)) = None /\ xcheck true (fst (head n)) (fst (n_com n)) None 91 = VOk /\
  agreement (fst (head n)) [1] = Some (mkTaa [5; 5] [1] (Some 48) [1; 5; 5] (Some 90) 5 90) /\ agreement (fst (head n)) [2] = Some (mkTaa [6] [2] (Some 70) [2; 6] (Some 90) 5 90).
Proof. vm_compute. repeat split. Qed.
Example C58_agree_ex : let n := xrun init (firstn 4 x_es) in let b := EBatch [tr (WTaa [2] (Some [6]) (Some 70) None)] 80 in
  n_states n = [] /\ head (xrun n [b; ECommit]) = head (xrun n [b]) /\ n_com (xrun n [b; ECommit]) <> n_com (xrun n [b]) /\
  forall required acc t, xcheck required (fst (head (xrun n [b; ECommit]))) (fst (n_com (xrun n [b; ECommit]))) acc t = xcheck required (fst (head (xrun n [b]))) (fst (n_com (xrun n [b]))) acc t.
Proof.
  intros n b. split; [reflexivity|].
  assert (NB : forall l, l = [b; ECommit] \/ l = [b] -> no_rejects l /\ no_aml l).
  { intros l L. split.
    - destruct L as [->| ->]; intros J; cbn in J; intuition discriminate.
    - destruct L as [->| ->]; intros rs t v ms bb ee J K; cbn in J; repeat (destruct J as [J|J]; [try discriminate J; injection J as <- <-; cbn in K; intuition discriminate|]); destruct J. }
  destruct (C58_agree_partial idH 1000 10 2 2 n [b; ECommit] [b] eq_refl eq_refl (proj1 (NB _ (or_introl eq_refl))) (proj1 (NB _ (or_intror eq_refl)))
    (proj2 (NB _ (or_introl eq_refl))) (proj2 (NB _ (or_intror eq_refl)))) as [E F].
  split; [exact E|]. split; [vm_compute; discriminate | exact F].
Qed.

(** *** The text of a committed agreement can be replaced: the digest is that of version and text
    written after each other, so version 1 with text 2 5 and version 1 2 with text 5 have the same one,
    whatever the hash. The second one is recorded in place of the first. *)
Theorem C58_text_changed_refuted : forall H, let n := run H 1000 init [EBatch [tr (WAml [1] [[7]])] 50; EBatch [tr (WTaa [1] (Some [2; 5]) (Some 48) None)] 60; ECommit; ECommit] in
  let n' := run H 1000 n [EBatch [tr (WTaa [1; 2] (Some [5]) (Some 61) None)] 70; ECommit] in
  exists a b, agreement (fst (n_com n)) [1] = Some a /\ agreement (fst (n_com n')) [1] = Some b /\ t_text a = [2; 5] /\ t_text b = [5] /\ t_version b = [1; 2] /\ ~ keeps (fst (n_com n)) (fst (n_com n')).
Proof.
  intros H n n'.
  set (a := mkTaa [2; 5] [1] (Some 48) (H [1; 2; 5]) None 2 60). set (b := mkTaa [5] [1; 2] (Some 61) (H [1; 2; 5]) None 3 70). exists a, b.
  assert (EA : agreement (fst (n_com n)) [1] = Some a).
  { unfold n, agreement. cbn. unfold mget. cbn. unfold taa_digest. cbn [app]. rewrite str_eqb_refl. reflexivity. }
  assert (EB : agreement (fst (n_com n')) [1] = Some b).
  { unfold n', n, agreement. cbn. unfold mget, mset. cbn. unfold taa_digest. cbn [app]. rewrite str_eqb_refl. cbn. reflexivity. }
  split; [exact EA|]. split; [exact EB|]. split; [reflexivity|]. split; [reflexivity|]. split; [reflexivity|].
  intros [K _]. destruct (K [1] a EA) as (b' & E & T & _). rewrite EB in E. injection E as <-. discriminate T.
Qed.
(** *** Anybody can disable the agreements: the type is not in the list that is checked for trustees *)
Theorem C58_anyone_disables_refuted : valid 1000 x_head (mkW WDisable false true) 90 = true /\
  (let n := xrun x_n [EBatch [mkW WDisable false true] 90] in c_latest (fst (head n)) = None /\ forall acc, xcheck true (fst (head n)) (fst (n_com n)) acc 91 = VOk).
Proof. split; [vm_compute; reflexivity|]. split; [vm_compute; reflexivity|]. intros acc. reflexivity. Qed.
(** *** Nodes that have applied the same batches but committed differently many give different verdicts *)
Theorem C58_agree_refuted : exists es1 es2 acc t, batches es1 = batches es2 /\ no_rejects es1 /\ no_rejects es2 /\
  let n1 := xrun x_n es1 in let n2 := xrun x_n es2 in head n1 = head n2 /\
  xcheck true (fst (head n1)) (fst (n_com n1)) acc t = VOk /\ xcheck true (fst (head n2)) (fst (n_com n2)) acc t = VBadMech.
Proof.
  exists [ECommit; EBatch [tr (WAml [2] [[9]])] 81; ECommit], [ECommit; EBatch [tr (WAml [2] [[9]])] 81], (Some (mkAcc [2; 6] [9] 80)), 85.
  split; [reflexivity|]. split; [intros J; cbn in J; intuition discriminate|]. split; [intros J; cbn in J; intuition discriminate|]. vm_compute. repeat split.
Qed.
(** *** When mechanisms and agreement are applied but not committed, any acceptance makes the node
    raise TaaAmlNotSetError, which nobody catches while a batch of another node is checked *)
Theorem C58_no_mechanisms_refuted : let n := xrun init [EBatch [tr (WAml [1] [[7]])] 50; EBatch [tr (WTaa [1] (Some [5; 5]) (Some 48) None)] 60] in
  xcheck true (fst (head n)) (fst (n_com n)) (Some (mkAcc [1; 5; 5] [7] 60)) 65 = VNoAml /\
  let n' := xrun n [ECommit] in xcheck true (fst (head n')) (fst (n_com n')) (Some (mkAcc [1; 5; 5] [7] 60)) 65 = VOk.
Proof. vm_compute. repeat split. Qed.
(** *** A retirement is taken back by an update without a retirement date *)
Theorem C58_retired_refuted : let n := xrun x_n [EBatch [tr (WTaa [1] None None None)] 100] in
  xcheck true x_head x_com (Some (mkAcc [1; 5; 5] [7] 80)) 100 = VRetired /\ xcheck true (fst (head n)) (fst (n_com n)) (Some (mkAcc [1; 5; 5] [7] 80)) 100 = VOk.
Proof. vm_compute. repeat split. Qed.

(** *** What a client may not ask for is written if it comes with a PROPAGATE, such as mechanisms without any
    mechanism; then no acceptance passes any more *)
Theorem C58_static_refuted : let q e := mkW (WAml [9] []) true e in
  valid 1000 x_head (q true) 90 = false /\ valid 1000 x_head (q false) 90 = true /\
  let n := xrun x_n [ECommit; EBatch [q false] 90; ECommit] in c_latest (fst (head n)) <> None /\
  forall acc t, xcheck true (fst (head n)) (fst (n_com n)) acc t <> VOk.
Proof.
  split; [vm_compute; reflexivity|]. split; [vm_compute; reflexivity|]. split; [vm_compute; discriminate|].
  assert (G : forall h c acc t m, c_aml c = Some m -> a_mechs m = [] -> match c_latest h with Some d => mget d (c_taas h) <> None | None => False end -> xcheck true h c acc t <> VOk).
  { intros h c acc t m AM MS L. unfold xcheck, do_taa_validation. cbn [negb]. destruct (c_latest h) as [d|]; [|destruct L]. destruct (mget d (c_taas h)) as [y|]; [|congruence]. cbn [negb]. destruct acc as [a|]; [|discriminate].
    destruct (mget (ac_digest a) (c_taas h)) as [z|]; [|discriminate]. destruct (match t_retired z with Some r => _ | None => false end); [discriminate|]. destruct (1000 <? ac_time a); [discriminate|].
    destruct (negb (ac_time a mod 10 =? 0)); [discriminate|]. destruct (t_ratified z); [|discriminate]. match goal with |- (if ?x then _ else _) <> _ => destruct x end; [discriminate|]. rewrite AM, MS. discriminate. }
  intros acc t. eapply G; [vm_compute; reflexivity | reflexivity | vm_compute; discriminate].
Qed.

Print Assumptions C58_unchanged_partial.
Print Assumptions C58_order_partial.
Print Assumptions C58_digest_partial.
Print Assumptions C58_latest.
Print Assumptions C58_written.
Print Assumptions C58_aml_written.
Print Assumptions C58_disabled.
Print Assumptions C58_accepted.
Print Assumptions C58_not_required.
Print Assumptions C58_agree_partial.
Print Assumptions C58_text_changed_refuted.
Print Assumptions C58_anyone_disables_refuted.
Print Assumptions C58_agree_refuted.
Print Assumptions C58_no_mechanisms_refuted.
Print Assumptions C58_retired_refuted.
Print Assumptions C58_static_refuted.
