(** Proofs about BLS multi-signatures. *)
From Coq Require Import List Arith Bool Lia.
From Verif Require Import Quorum_Model Dict Bls_Model Bls_Spec.
Import ListNotations.

Lemma key_eqb_spec a b : reflect (a = b) (key_eqb a b).
Proof.
  destruct a as [a1 a2], b as [b1 b2]. unfold key_eqb. simpl.
  destruct (Nat.eqb_spec a1 b1), (Nat.eqb_spec a2 b2); simpl; constructor; congruence.
Qed.
Lemma key_leb_refl a : key_leb a a = true.
Proof. unfold key_leb. rewrite Nat.eqb_refl. apply Nat.leb_refl. Qed.
Lemma key_leb_trans a b c : key_leb a b = true -> key_leb b c = true -> key_leb a c = true.
Proof.
  unfold key_leb. destruct a as [a1 a2], b as [b1 b2], c as [c1 c2]. simpl.
  destruct (Nat.eqb_spec a1 b1), (Nat.eqb_spec b1 c1), (Nat.eqb_spec a1 c1); subst;
    rewrite ?Nat.leb_le, ?Nat.ltb_lt; try lia.
Qed.
Lemma key_leb_total a b : key_leb a b = false -> key_leb b a = true.
Proof.
  unfold key_leb. destruct a as [a1 a2], b as [b1 b2]. simpl.
  destruct (Nat.eqb_spec a1 b1); destruct (Nat.eqb_spec b1 a1); subst; try congruence;
    rewrite ?Nat.leb_gt, ?Nat.leb_le, ?Nat.ltb_ge, ?Nat.ltb_lt; lia.
Qed.

Section Proofs.
  Context {vk sig msig : Type}.
  Variable verify : sig -> value -> vk -> bool.
  Variable aggregate : list sig -> msig.
  Variable verify_multi : msig -> value -> list vk -> bool.
  Variable keys : root -> option (name -> option vk).
  Variables int_of str_of : nat -> nat.
  Hypothesis int_str : forall n, int_of (str_of n) = n.
  Variable cfg : config.
  Notation run := (run verify aggregate verify_multi keys int_of str_of cfg).
  Notation step := (step verify aggregate verify_multi keys int_of str_of cfg).
  Notation event := (event sig msig).
  Notation state := (state sig msig).
  Notation output := (output sig msig).
  Notation signed_by := (signed_by verify keys).

  Lemma run_snoc es : forall (st : state) e st2 o, run st (es ++ [e]) = Ok (st2, o) ->
    exists st1 o1 o2, run st es = Ok (st1, o1) /\ step st1 e = Ok (st2, o2) /\ o = o1 ++ o2.
  Proof.
    induction es as [|e0 es IH]; intros st e st2 o E; cbn [app Bls_Model.run] in *.
    - destruct (step st e) as [(s1, o1)|] eqn:E1; cbn in E; [|discriminate]. injection E as <- <-.
      exists st, [], o1. rewrite app_nil_r. auto.
    - destruct (step st e0) as [(s1, o1)|] eqn:E1; cbn in E; [|discriminate].
      destruct (run s1 (es ++ [e])) as [(s3, o3)|] eqn:E2; cbn in E; [|discriminate]. injection E as <- <-.
      destruct (IH _ _ _ _ E2) as (st1 & o1' & o2 & A & B & ->). exists st1, (o1 ++ o1'), o2. cbn. rewrite A. cbn.
      rewrite app_assoc. auto.
  Qed.
  Lemma run_snoc_ok es : forall (st : state) e st1 o1, run st es = Ok (st1, o1) ->
    run st (es ++ [e]) = bind (step st1 e) (fun x => Ok (fst x, o1 ++ snd x)).
  Proof.
    induction es as [|e0 es IH]; intros st e st1 o1 E; cbn [app Bls_Model.run] in *.
    - injection E as <- <-. destruct (step st e) as [(s2, o2)|]; cbn; [|reflexivity]. rewrite app_nil_r. reflexivity.
    - destruct (step st e0) as [(s1, o2)|] eqn:E1; cbn in E |- *; [|discriminate].
      destruct (run s1 es) as [(s3, o3)|] eqn:E2; cbn in E; [|discriminate]. injection E as <- <-.
      rewrite (IH _ e _ _ E2). destruct (step s3 e) as [(s4, o4)|]; cbn; [|reflexivity]. rewrite app_assoc. reflexivity.
  Qed.

  (** ** dictionaries *)
  Lemma kget_kset k (d : sig_dict sig) l k' : kget k' (kset k d l) = if key_eqb k' k then Some d else kget k' l.
  Proof.
    induction l as [|(k0, d0) l IH]; simpl; [reflexivity|]. destruct (key_eqb_spec k k0) as [<-|N]; simpl.
    - destruct (key_eqb k' k); reflexivity.
    - rewrite IH. destruct (key_eqb_spec k' k0) as [->|N']; [|reflexivity]. destruct (key_eqb_spec k0 k); congruence.
  Qed.
  Lemma kget_filter (f : key -> bool) (l : list (key * sig_dict sig)) k : kget k (filter (fun x => f (fst x)) l) = if f k then kget k l else None.
  Proof.
    induction l as [|(k0, d0) l IH]; simpl; [destruct (f k); reflexivity|].
    destruct (f k0) eqn:F; simpl; rewrite IH; destruct (key_eqb_spec k k0) as [->|N]; rewrite ?F; reflexivity.
  Qed.

  Definition has (d : sig_dict sig) txt x s := exists sd, get txt d = Some sd /\ get x sd = Some s.
  Definition nd (d : sig_dict sig) := NoDup (map fst d) /\ forall txt sd, get txt d = Some sd -> NoDup (map fst sd).

  Lemma add_has sender d y txt x s : has (add_sig sender d y) txt x s -> has d txt x s \/ (x = sender /\ (txt, s) = y).
  Proof.
    intros (sd & A & B). unfold add_sig in A. rewrite get_set in A. destruct (Nat.eqb_spec txt (fst y)) as [->|N].
    - injection A as <-. rewrite get_set in B. destruct (Nat.eqb_spec x sender) as [->|N].
      + injection B as <-. right. destruct y; auto.
      + left. unfold get_or in B. destruct (get (fst y) d) as [sd|] eqn:E; [exists sd; auto|discriminate B].
    - left. exists sd. auto.
  Qed.
  Lemma adds_has sender l : forall d txt x s, has (fold_left (add_sig sender) l d) txt x s -> has d txt x s \/ (x = sender /\ In (txt, s) l).
  Proof.
    induction l as [|y l IH]; intros d txt x s Hh; simpl in *; [auto|].
    destruct (IH _ _ _ _ Hh) as [A|A]; [|intuition]. destruct (add_has _ _ _ _ _ _ A) as [B|(B & E)]; [auto|]. right. auto.
  Qed.
  Lemma add_nd sender d y : nd d -> nd (add_sig sender d y).
  Proof.
    intros (A & B). unfold add_sig. split; [apply nodup_set; exact A|]. intros txt sd E. rewrite get_set in E.
    destruct (Nat.eqb_spec txt (fst y)) as [->|N]; [|apply (B _ _ E)]. injection E as <-. apply nodup_set.
    unfold get_or. destruct (get (fst y) d) eqn:E; [apply (B _ _ E)|apply NoDup_nil].
  Qed.
  Lemma adds_nd sender l : forall d, nd d -> nd (fold_left (add_sig sender) l d).
  Proof. induction l as [|y l IH]; intros d N; simpl; [exact N|]. apply IH. apply add_nd. exact N. Qed.
  Lemma nd_nil : nd [].
  Proof. split; [apply NoDup_nil|]. intros txt sd E. discriminate E. Qed.

  (** ** validation *)
  Definition goodsig (t : audit_txn) (pp : pre_prepare msig) txt x s : Prop :=
    exists v, value_of t pp (int_of txt) v /\ signed_by x s v.

  Lemma value_for_ok lid r e pp v : value_for lid r e (pp : pre_prepare msig) = Ok v ->
    exists h pool, e = Some (Hash h) /\ pp_pool pp = Val pool /\ v = Value lid r pool h (pp_time pp).
  Proof.
    unfold value_for. destruct (pp_pool pp) as [| |pool]; try discriminate. destruct e as [[h|]|]; try discriminate.
    intros E. injection E as <-. exists h, pool. auto.
  Qed.
  Lemma sigs_valid_good t pp x l : sigs_valid verify keys int_of t pp x l = Ok true -> forall txt s, In (txt, s) l -> goodsig t pp txt x s.
  Proof.
    induction l as [|(txt0, s0) l IH]; simpl; intros E txt s I0; [destruct I0|].
    destruct (get (int_of txt0) (a_states t)) as [r|] eqn:E1; [|discriminate].
    destruct (get (int_of txt0) (a_ledgers t)) as [e|] eqn:E2; [|discriminate].
    destruct (value_for (int_of txt0) r (Some e) pp) as [v|] eqn:E3; cbn in E; [|discriminate].
    destruct (validate_signature verify keys x s0 v) as [b|] eqn:E4; cbn in E; [|discriminate].
    destruct b; [|discriminate]. destruct I0 as [I0|I0]; [|apply IH; assumption]. injection I0 as <- <-.
    destruct (value_for_ok _ _ _ _ _ E3) as (h & pool & A & B & C). exists v. split.
    - exists r, h, pool. split; [exact E1|]. split; [congruence|]. auto.
    - unfold validate_signature in E4. destruct (keys (v_pool v)) as [reg|] eqn:K; [|discriminate].
      destruct (reg x) as [k|] eqn:R; [|discriminate]. exists reg, k. split; [exact K|]. split; [exact R|]. congruence.
  Qed.
  Lemma sign_all_good (sign : value -> sig) t (pp : pre_prepare msig) l d : sign_all str_of sign t pp l = Ok d -> NoDup (map fst l) ->
    forall txt s, In (txt, s) d -> exists lid r h pool, In (lid, r) l /\ txt = str_of lid /\ get lid (a_ledgers t) = Some (Hash h) /\
      pp_pool (pp : pre_prepare msig) = Val pool /\ s = sign (Value lid r pool h (pp_time pp)).
  Proof.
    revert d. induction l as [|(lid, r) l IH]; simpl; intros d E N txt s I0.
    - injection E as <-. destruct I0.
    - destruct (value_for lid r (get lid (a_ledgers t)) pp) as [v|] eqn:E1; cbn in E; [|discriminate].
      destruct (sign_all str_of sign t pp l) as [d'|] eqn:E2; cbn in E; [|discriminate]. injection E as <-.
      inversion N as [|? ? N1 N2]; subst. destruct I0 as [I0|I0].
      + injection I0 as <- <-. destruct (value_for_ok _ _ _ _ _ E1) as (h & pool & A & B & ->).
        exists lid, r, h, pool. auto 6.
      + destruct (IH _ eq_refl N2 _ _ I0) as (lid' & r' & h & pool & A & B). exists lid', r', h, pool. auto.
  Qed.
  Lemma sign_all_texts (sign : value -> sig) t (pp : pre_prepare msig) l d : sign_all str_of sign t pp l = Ok d -> map fst d = map str_of (map fst l).
  Proof.
    revert d. induction l as [|(lid, r) l IH]; simpl; intros d E; [injection E as <-; reflexivity|].
    destruct (value_for lid r (get lid (a_ledgers t)) pp) as [v|] eqn:E1; cbn in E; [|discriminate].
    destruct (sign_all str_of sign t pp l) as [d'|] eqn:E2; cbn in E; [|discriminate]. injection E as <-. simpl. f_equal. auto.
  Qed.

  Lemma calculate_all_in t pp d l : calculate_all aggregate int_of t pp d = Ok l -> forall m, In m l ->
    exists txt sd v, In (txt, sd) d /\ value_of t pp (int_of txt) v /\ m = single aggregate sd v.
  Proof.
    revert l. induction d as [|(txt, sd) d IH]; simpl; intros l E m I0; [injection E as <-; destruct I0|].
    destruct (get (int_of txt) (a_states t)) as [r|] eqn:E1; [|discriminate].
    destruct (get (int_of txt) (a_ledgers t)) as [e|] eqn:E2; [|discriminate].
    destruct (value_for (int_of txt) r (Some e) pp) as [v|] eqn:E3; cbn in E; [|discriminate].
    destruct (calculate_all aggregate int_of t pp d) as [l'|] eqn:E4; cbn in E; [|discriminate]. injection E as <-.
    destruct I0 as [<-|I0].
    - exists txt, sd, v. split; [auto|]. split; [|reflexivity]. destruct (value_for_ok _ _ _ _ _ E3) as (h & pool & A & B & C).
      exists r, h, pool. split; [exact E1|]. split; [congruence|]. auto.
    - destruct (IH _ eq_refl _ I0) as (txt' & sd' & v' & A & B). exists txt', sd', v'. auto.
  Qed.

  (** ** the history *)
  Variable ppof : key -> pre_prepare msig.
  Variable txn : key -> option audit_txn.
  Hypothesis states_nodup : forall k t, txn k = Some t -> NoDup (map fst (a_states t)).

  Record inv (es : list event) (o : list output) (st : state) : Prop := {
    i_nd : forall k d, kget k (b_sigs st) = Some d -> nd d;
    i_from : forall k d txt x s, kget k (b_sigs st) = Some d -> has d txt x s -> sent_by (me cfg) es k x txt s;
    i_good : forall k d txt x s t, kget k (b_sigs st) = Some d -> key_leb k (b_last st) = false -> txn k = Some t ->
      has d txt x s -> goodsig t (ppof k) txt x s;
    i_latest : forall l m, b_latest st = Some l -> In m l -> exists pp, In (OMulti pp m) o;
    i_store : forall r m, get r (b_store st) = Some m ->
      v_state (ms_value m) = r /\ ((exists pp, In (OMulti pp m) o) \/ In (OShared m) o) }.

  Lemma sent_by_more es e k x txt s : sent_by (me cfg) es k x txt s -> sent_by (me cfg) (es ++ [e]) k x txt (s : sig) (msig := msig).
  Proof.
    intros [(audit & c & pp & l & A & B)|(E & sign & audit & pp & v & A & B)].
    - left. exists audit, c, pp, l. split; [apply in_or_app; auto|exact B].
    - right. split; [exact E|]. exists sign, audit, pp, v. split; [apply in_or_app; auto|exact B].
  Qed.

  Lemma puts_in l : forall (st : dict (multi_sig msig)) r m, get r (fold_left put l st) = Some m ->
    get r st = Some m \/ (In m l /\ v_state (ms_value m) = r).
  Proof.
    induction l as [|y l IH]; intros st r m E; simpl in *; [auto|]. destruct (IH _ _ _ E) as [A|(A & B)]; [|auto].
    unfold put in A. rewrite get_set in A. destruct (Nat.eqb_spec r (v_state (ms_value y))) as [->|N]; [|auto].
    injection A as <-. auto.
  Qed.

  (** a Commit is taken *)
  Lemma commit_inv es e o o2 st c x :
    inv es o st ->
    (forall l txt s, c_sigs c = Some l -> In (txt, s) l -> sent_by (me cfg) (es ++ [e]) (c_key c) x txt s (msig := msig)) ->
    (forall l txt s t, c_sigs c = Some l -> key_leb (c_key c) (b_last st) = false -> txn (c_key c) = Some t -> In (txt, s) l ->
       goodsig t (ppof (c_key c)) txt x s) ->
    inv (es ++ [e]) (o ++ o2) (process_commit c x st).
  Proof.
    intros [N F Gd L St] Hs Hg. unfold process_commit. destruct (c_sigs c) as [l|] eqn:Ec.
    - set (d0 := match kget (c_key c) (b_sigs st) with Some d => d | None => [] end).
      assert (H0 : forall txt y s, has d0 txt y s -> exists d, kget (c_key c) (b_sigs st) = Some d /\ has d txt y s).
      { intros txt y s Hh. unfold d0 in Hh. destruct (kget (c_key c) (b_sigs st)) as [d|]; [exists d; auto|].
        destruct Hh as (sd & X & _). discriminate X. }
      constructor; cbn [b_sigs b_latest b_store b_last].
      + intros k d E. rewrite kget_kset in E. destruct (key_eqb k (c_key c)); [|apply (N _ _ E)]. injection E as <-.
        apply adds_nd. unfold d0. destruct (kget (c_key c) (b_sigs st)) eqn:E; [apply (N _ _ E)|apply nd_nil].
      + intros k d txt y s E Hh. rewrite kget_kset in E. destruct (key_eqb_spec k (c_key c)) as [->|Ne].
        * injection E as <-. destruct (adds_has _ _ _ _ _ _ Hh) as [A|(-> & A)].
          -- destruct (H0 _ _ _ A) as (d & D1 & D2). apply sent_by_more. apply (F _ _ _ _ _ D1 D2).
          -- apply (Hs l); auto.
        * apply sent_by_more. apply (F _ _ _ _ _ E Hh).
      + intros k d txt y s t E Lb Tx Hh. rewrite kget_kset in E. destruct (key_eqb_spec k (c_key c)) as [->|Ne].
        * injection E as <-. destruct (adds_has _ _ _ _ _ _ Hh) as [A|(-> & A)].
          -- destruct (H0 _ _ _ A) as (d & D1 & D2). apply (Gd _ _ _ _ _ _ D1 Lb Tx D2).
          -- apply (Hg l); auto.
        * apply (Gd _ _ _ _ _ _ E Lb Tx Hh).
      + intros l' m E I0. destruct (L _ _ E I0) as (pp & X). exists pp. apply in_or_app. auto.
      + intros r m E. destruct (St _ _ E) as (A & [(pp & X)|X]); (split; [exact A|]); [left; exists pp|right]; apply in_or_app; auto.
    - constructor; auto.
      + intros k d txt y s E Hh. apply sent_by_more. apply (F _ _ _ _ _ E Hh).
      + intros l' m E I0. destruct (L _ _ E I0) as (pp & X). exists pp. apply in_or_app. auto.
      + intros r m E. destruct (St _ _ E) as (A & [(pp & X)|X]); (split; [exact A|]); [left; exists pp|right]; apply in_or_app; auto.
  Qed.

  (** everything but the signatures changes *)
  Lemma other_inv es e o o2 st st' :
    inv es o st -> (forall k d, kget k (b_sigs st') = Some d -> kget k (b_sigs st) = Some d) ->
    key_leb (b_last st) (b_last st') = true ->
    (forall l m, b_latest st' = Some l -> In m l -> b_latest st = Some l \/ exists pp, In (OMulti pp m) o2) ->
    (forall r m, get r (b_store st') = Some m -> get r (b_store st) = Some m \/
       v_state (ms_value m) = r /\ ((exists pp, In (OMulti pp m) o2) \/ In (OShared m) o2)) ->
    inv (es ++ [e]) (o ++ o2) st'.
  Proof.
    intros [N F Gd L St] Hk Hl H1 H2. constructor.
    - intros k d E. apply (N k). auto.
    - intros k d txt x s E Hh. apply sent_by_more. apply (F k d); auto.
    - intros k d txt x s t E Lb. apply (Gd k d); auto. destruct (key_leb k (b_last st)) eqn:X; [|reflexivity].
      rewrite (key_leb_trans _ _ _ X Hl) in Lb. discriminate Lb.
    - intros l m E I0. destruct (H1 l m E I0) as [A|(pp & X)].
      + destruct (L _ _ A I0) as (pp & X). exists pp. apply in_or_app. auto.
      + exists pp. apply in_or_app. auto.
    - intros r m E. destruct (H2 r m E) as [A|(A & [(pp & X)|X])].
      + destruct (St _ _ A) as (B & [(pp & X)|X]); (split; [exact B|]); [left; exists pp|right]; apply in_or_app; auto.
      + split; [exact A|]. left. exists pp. apply in_or_app. auto.
      + split; [exact A|]. right. apply in_or_app. auto.
  Qed.

  Lemma update_commit_good es e o st sign audit pp l txt s t : inv es o st ->
    e = EOwn (Some sign) audit pp -> fits ppof txn e -> own_key verify keys (me cfg) (es ++ [e]) ->
    update_commit str_of (Some sign) audit pp = Ok (Some l) -> txn (pp_key pp) = Some t -> In (txt, s) l ->
    goodsig t (ppof (pp_key pp)) txt (me cfg) s.
  Proof.
    intros _ Ee Fe Ow E Et I0. subst e. destruct Fe as (Fp & Ft). unfold update_commit in E. rewrite Ft, Et in E.
    destruct (sign_all str_of sign t pp (a_states t)) as [d|] eqn:E1; cbn in E; [|discriminate]. injection E as <-.
    destruct (sign_all_good _ _ _ _ _ E1 (states_nodup _ _ Et) _ _ I0) as (lid & r & h & pool & A & -> & B & C & ->).
    rewrite <- Fp. eexists. split.
    - exists r, h, pool. rewrite int_str. split; [apply in_get; [apply (states_nodup _ _ Et)|exact A]|]. split; [exact B|].
      split; [exact C|]. reflexivity.
    - apply (Ow sign audit pp); [apply in_or_app; right; left; reflexivity|exact C].
  Qed.
  Lemma update_commit_sign (sign0 : option (value -> sig)) audit (pp : pre_prepare msig) l txt s : update_commit str_of sign0 audit pp = Ok (Some l) -> In (txt, s) l ->
    exists sign v, sign0 = Some sign /\ s = (sign v : sig).
  Proof.
    unfold update_commit. destruct sign0 as [sign|]; [|discriminate]. destruct (audit_for audit pp) as [t|]; [|discriminate].
    destruct (sign_all str_of sign t pp (a_states t)) as [d|] eqn:E1; cbn; [|discriminate]. intros E. injection E as <-.
    intros I0. exists sign. revert E1 I0. generalize (a_states t). intros ll. revert d.
    induction ll as [|(lid, r) ll IH]; simpl; intros d E I0; [injection E as <-; destruct I0|].
    destruct (value_for lid r (get lid (a_ledgers t)) pp) as [v|]; cbn in E; [|discriminate].
    destruct (sign_all str_of sign t pp ll) as [d'|]; cbn in E; [|discriminate]. injection E as <-. destruct I0 as [I0|I0].
    - injection I0 as _ <-. exists v. auto.
    - apply (IH d'); auto.
  Qed.

  Lemma step_inv es e o st st' o2 : inv es o st -> fits ppof txn e -> own_key verify keys (me cfg) (es ++ [e]) ->
    step st e = Ok (st', o2) -> inv (es ++ [e]) (o ++ o2) st'.
  Proof.
    intros Iv Ft Ow E. destruct e as [pp applied|audit c x pp|signer audit pp|audit pp| |k|k]; cbn [Bls_Model.step] in E.
    - destruct (validate_pre_prepare verify_multi keys pp) as [ok|]; cbn in E; [|discriminate].
      destruct (ok && applied && master cfg); injection E as <- <-.
      + unfold process_pre_prepare. destruct (pp_multi pp) as [ms|]; apply (other_inv es _ o _ st); auto using key_leb_refl.
        intros r m X. cbn in X. destruct (puts_in _ _ _ _ X) as [A|(A & B)]; [auto|]. right. split; [exact B|]. right. apply in_map. exact A.
      + apply (other_inv es _ o _ st); auto using key_leb_refl.
    - destruct Ft as (F1 & F2 & F3). destruct (key_leb (c_key c) (b_last st)) eqn:Lb.
      + cbn in E. injection E as <- <-. apply commit_inv; auto; [|congruence].
        intros l txt s El I0. left. exists audit, c, pp, l. split; [apply in_or_app; right; left; reflexivity|auto].
      + destruct (validate_commit verify keys int_of audit c x pp) as [ok|] eqn:V; cbn in E; [|discriminate]. destruct ok.
        * injection E as <- <-. apply commit_inv; auto.
          -- intros l txt s El I0. left. exists audit, c, pp, l. split; [apply in_or_app; right; left; reflexivity|auto].
          -- intros l txt s t El _ Et I0. unfold validate_commit in V. rewrite El, F3, Et in V. rewrite <- F1.
             apply (sigs_valid_good _ _ _ _ V). exact I0.
        * injection E as <- <-. apply (other_inv es _ o _ st); auto using key_leb_refl.
    - destruct (update_commit str_of signer audit pp) as [l|] eqn:U; cbn in E; [|discriminate]. injection E as <- <-.
      apply (commit_inv es _ o _ st (Commit (pp_view pp) (pp_seq pp) l) (me cfg)); auto; cbn [c_sigs]; change (c_key (Commit (pp_view pp) (pp_seq pp) l)) with (pp_key pp).
      + intros l' txt s -> I0. destruct (update_commit_sign _ _ _ _ _ _ U I0) as (sign & v & -> & ->).
        right. split; [reflexivity|]. exists sign, audit, pp, v. split; [apply in_or_app; right; left; reflexivity|auto].
      + intros l' txt s t -> _ Et I0. destruct (update_commit_sign _ _ _ _ _ _ U I0) as (sign & v & -> & _).
        apply (update_commit_good es _ o st sign audit pp l' txt s t Iv eq_refl Ft Ow U Et I0).
    - destruct (key_leb (pp_key pp) (b_last st)) eqn:Lb; [injection E as <- <-; apply (other_inv es _ o _ st); auto using key_leb_refl|].
      unfold process_order in E. destruct (negb (can_calculate (quo cfg) (pp_key pp) st)).
      { cbn in E. injection E as <- <-. apply (other_inv es _ o _ st); auto using key_leb_total. }
      destruct (calculate aggregate int_of audit pp (pp_key pp) st) as [l|]; cbn in E; [|discriminate]. destruct (negb (master cfg)).
      { cbn in E. injection E as <- <-. apply (other_inv es _ o _ st); auto using key_leb_total. }
      cbn in E. injection E as <- <-. apply (other_inv es _ o _ st); cbn [b_sigs b_last b_latest b_store]; auto using key_leb_total.
      + intros l' m X I0. injection X as <-. right. exists pp. apply in_map. exact I0.
      + intros r m X. destruct (puts_in _ _ _ _ X) as [A|(A & B)]; [auto|]. right. split; [exact B|]. left. exists pp. apply in_map. exact A.
    - destruct (b_latest st) as [l|] eqn:El; injection E as <- <-; apply (other_inv es _ o _ st); auto using key_leb_refl.
      cbn. intros l' m X. discriminate X.
    - injection E as <- <-. apply (other_inv es _ o _ st); auto using key_leb_refl. intros k' d X. unfold gc in X. cbn in X.
      rewrite (kget_filter (fun x => negb (key_leb x k))) in X. destruct (negb (key_leb k' k)); [exact X|discriminate].
    - injection E as <- <-. destruct (key_leb (b_last st) k) eqn:Lb; apply (other_inv es _ o _ st); auto using key_leb_refl.
  Qed.

  Lemma own_key_less es e : own_key verify keys (me cfg) (es ++ [e]) -> own_key verify keys (me cfg) (es : list event).
  Proof. intros H sign audit pp v X. apply H with audit. apply in_or_app. auto. Qed.

  Lemma inv_init : inv [] [] init.
  Proof. constructor; cbn; discriminate. Qed.
  Lemma run_inv es : (forall e, In e es -> fits ppof txn e) -> own_key verify keys (me cfg) es ->
    forall st o, run init es = Ok (st, o) -> inv es o st.
  Proof.
    induction es as [|e es IH] using rev_ind; intros Ft Ow st o E.
    - cbn in E. injection E as <- <-. exact inv_init.
    - destruct (run_snoc _ _ _ _ _ E) as (st1 & o1 & o2 & A & B & ->). apply (step_inv es e o1 st1); auto.
      + apply IH; [|exact (own_key_less _ _ Ow)|exact A]. intros e' X. apply Ft. apply in_or_app. auto.
      + apply Ft. apply in_or_app. right. left. reflexivity.
  Qed.

  (** ** what is calculated *)
  Definition sound (es : list event) (pp : pre_prepare msig) (m : multi_sig msig) : Prop :=
    exists t sd txt, txn (pp_key pp) = Some t /\ pp = ppof (pp_key pp) /\ value_of t pp (int_of txt) (ms_value m) /\
      NoDup (map fst sd) /\ bls_signatures (quo cfg) <= length sd /\ m = single aggregate sd (ms_value m) /\
      forall x s, In (x, s) sd -> sent_by (me cfg) es (pp_key pp) x txt s /\ signed_by x s (ms_value m).

  Lemma value_of_fun t (pp : pre_prepare msig) lid v v' : value_of t pp lid v -> value_of t pp lid v' -> v = v'.
  Proof. intros (r & h & p & A & B & C & ->) (r' & h' & p' & A' & B' & C' & ->). congruence. Qed.

  Lemma order_sound es o st audit pp st' l : inv es o st -> fits ppof txn (EOrder audit pp : event) ->
    key_leb (pp_key pp) (b_last st) = false ->
    process_order aggregate int_of (quo cfg) (master cfg) audit pp st = Ok (st', l) -> forall m, In m l -> sound es pp m.
  Proof.
    intros Iv (F1 & F2) Lb E m Im. unfold process_order in E.
    destruct (can_calculate (quo cfg) (pp_key pp) st) eqn:Cc; cbn in E; [|injection E as _ <-; destruct Im].
    destruct (calculate aggregate int_of audit pp (pp_key pp) st) as [l'|] eqn:Ca; cbn in E; [|discriminate].
    destruct (negb (master cfg)); [injection E as _ <-; destruct Im|]. injection E as _ ->.
    unfold calculate in Ca. rewrite F2 in Ca. unfold can_calculate in Cc.
    destruct (kget (pp_key pp) (b_sigs st)) as [d|] eqn:Ek; [|discriminate].
    destruct (txn (pp_key pp)) as [t|] eqn:Et; [|injection Ca as <-; destruct Im].
    destruct (calculate_all_in _ _ _ _ Ca m Im) as (txt & sd & v & A & B & C).
    destruct (i_nd _ _ _ Iv _ _ Ek) as (N1 & N2). pose proof (in_get _ _ _ N1 A) as Eg.
    assert (ms_value m = v) as Ev by (rewrite C; reflexivity).
    exists t, sd, txt. rewrite Ev. split; [exact Et|]. split; [exact F1|]. split; [exact B|]. split; [exact (N2 _ _ Eg)|].
    rewrite forallb_forall in Cc. specialize (Cc _ A). apply Nat.leb_le in Cc. split; [exact Cc|]. split; [exact C|].
    intros x s I0. assert (Hh : has d txt x s).
    { exists sd. split; [exact Eg|]. apply in_get; [exact (N2 _ _ Eg)|exact I0]. }
    split; [exact (i_from _ _ _ Iv _ _ _ _ _ Ek Hh)|].
    destruct (i_good _ _ _ Iv _ _ _ _ _ _ Ek Lb Et Hh) as (v' & V1 & V2). rewrite <- F1 in V1.
    rewrite (value_of_fun _ _ _ _ _ B V1). exact V2.
  Qed.

  Lemma sound_more es e pp m : sound es pp m -> sound (es ++ [e]) pp m.
  Proof.
    intros (t & sd & txt & A & B & C & D & F & G & Hh). exists t, sd, txt. repeat (split; [assumption|]).
    intros x s X. destruct (Hh x s X). split; [apply sent_by_more|]; assumption.
  Qed.

  Lemma run_sound es : (forall e, In e es -> fits ppof txn e) -> own_key verify keys (me cfg) es ->
    forall st o, run init es = Ok (st, o) ->
    (forall pp m, In (OMulti pp m) o -> sound es pp m) /\
    (forall l m, In (OSent l) o -> In m l -> exists pp, In (OMulti pp m) o).
  Proof.
    induction es as [|e es IH] using rev_ind; intros Ft Ow st o E.
    { cbn in E. injection E as <- <-. split; intros; contradiction. }
    destruct (run_snoc _ _ _ _ _ E) as (st1 & o1 & o2 & A & B & ->).
    assert (Ft' : forall e', In e' es -> fits ppof txn e') by (intros e' X; apply Ft; apply in_or_app; auto).
    pose proof (own_key_less _ _ Ow) as Ow'. destruct (IH Ft' Ow' _ _ A) as (I1 & I2).
    pose proof (run_inv es Ft' Ow' _ _ A) as Iv.
    assert (Fe : fits ppof txn e) by (apply Ft; apply in_or_app; right; left; reflexivity).
    assert (S2 : (forall pp m, In (OMulti pp m) o2 -> sound es pp m) /\ (forall l m, In (OSent l) o2 -> In m l -> exists pp, In (OMulti pp m) o1)).
    { destruct e as [pp applied|audit c x pp|signer audit pp|audit pp| |k|k]; cbn [Bls_Model.step] in B.
      - destruct (validate_pre_prepare verify_multi keys pp) as [ok|]; cbn in B; [|discriminate].
        destruct (ok && applied && master cfg); injection B as <- <-; [|split; intros; contradiction].
        destruct (pp_multi pp); [|split; intros; contradiction]. split; intros; apply in_map_iff in H as (y & Y & _); discriminate Y.
      - destruct (if key_leb (c_key c) (b_last st1) then Ok true else validate_commit verify keys int_of audit c x pp) as [[]|]; cbn in B;
          [| |discriminate]; injection B as <- <-; (split; intros; try contradiction); destruct H as [H|[]]; discriminate H.
      - destruct (update_commit str_of signer audit pp) as [l|]; cbn in B; [|discriminate]. injection B as <- <-.
        split; intros; destruct H as [H|[]]; discriminate H.
      - destruct (key_leb (pp_key pp) (b_last st1)) eqn:Lb; [injection B as <- <-; split; intros; contradiction|].
        destruct (process_order aggregate int_of (quo cfg) (master cfg) audit pp st1) as [(st2, l)|] eqn:Po; cbn in B; [|discriminate].
        injection B as <- <-. split.
        + intros pp' m X. apply in_map_iff in X as (y & Y & Z). injection Y as <- <-. apply (order_sound es o1 st1 audit pp st2 l); auto.
        + intros l' m X. apply in_map_iff in X as (y & Y & _). discriminate Y.
      - destruct (b_latest st1) as [l|] eqn:El; injection B as <- <-; [|split; intros; contradiction].
        split; [intros pp m [X|[]]; discriminate X|]. intros l' m [X|[]] Im. injection X as <-. apply (i_latest _ _ _ Iv l m El Im).
      - injection B as <- <-. split; intros; contradiction.
      - injection B as <- <-. split; intros; contradiction. }
    destruct S2 as (S1 & S2). split.
    - intros pp m X. apply in_app_or in X as [X|X]; apply sound_more; auto.
    - intros l m X Im. apply in_app_or in X as [X|X].
      + destruct (I2 l m X Im) as (pp & P). exists pp. apply in_or_app. auto.
      + destruct (S2 l m X Im) as (pp & P). exists pp. apply in_or_app. auto.
  Qed.

  (** ** a sound multi-signature is accepted *)
  Lemma single_valid sd v : scheme_ok verify aggregate verify_multi -> sd <> [] -> (forall x s, In (x, s) sd -> signed_by x s v) ->
    validate_multi_sig verify_multi keys (single aggregate sd v) = Ok true.
  Proof.
    intros Sc Ne Hs. unfold validate_multi_sig, single. cbn [ms_value ms_sig ms_parts].
    destruct sd as [|(x0, s0) sd]; [congruence|]. destruct (Hs x0 s0 (or_introl eq_refl)) as (reg & k0 & K & _). rewrite K. f_equal.
    apply Sc; [discriminate|]. clear Ne. revert Hs. generalize ((x0, s0) :: sd). clear x0 s0 sd k0. intros sd Hs.
    induction sd as [|(x, s) sd IH]; cbn [map present flat_map fst snd]; [apply Forall2_nil|].
    destruct (Hs x s (or_introl eq_refl)) as (reg' & k & K' & R & V). assert (reg' = reg) as -> by congruence. rewrite R. cbn [app].
    apply Forall2_cons; [exact V|]. apply IH. intros y s' Y. apply Hs. right. exact Y.
  Qed.
  Lemma sound_valid es pp m : scheme_ok verify aggregate verify_multi -> 1 <= bls_signatures (quo cfg) -> sound es pp m ->
    validate_multi_sig verify_multi keys m = Ok true.
  Proof.
    intros Sc Q (t & sd & txt & A & B & C & D & F & G & Hh). rewrite G. apply single_valid; [exact Sc| |intros x s X; apply (Hh x s X)].
    intros ->. simpl in F. lia.
  Qed.
  Lemma all_valid_ok (l : list (multi_sig msig)) : (forall m, In m l -> validate_multi_sig verify_multi keys m = Ok true) ->
    all_valid verify_multi keys l = Ok true.
  Proof. induction l as [|m l IH]; intros Hv; simpl; [reflexivity|]. rewrite (Hv m (or_introl eq_refl)). cbn. apply IH. intros m' X. apply Hv. right. exact X. Qed.

  (** ** nothing raises *)
  Notation tame := (tame keys).
  Definition filled (st : state) := forall k d txt sd, kget k (b_sigs st) = Some d -> get txt d = Some sd -> exists x s, get x sd = Some (s : sig).
  Lemma add_filled sender d y : (forall txt sd, get txt d = Some sd -> exists x s, get x sd = Some (s : sig)) ->
    forall txt sd, get txt (add_sig sender d y) = Some sd -> exists x s, get x sd = Some s.
  Proof.
    intros Hd txt sd E. unfold add_sig in E. rewrite get_set in E. destruct (txt =? fst y); [|apply (Hd _ _ E)].
    injection E as <-. exists sender, (snd y). rewrite get_set, Nat.eqb_refl. reflexivity.
  Qed.
  Lemma adds_filled sender l : forall d, (forall txt sd, get txt d = Some sd -> exists x s, get x sd = Some (s : sig)) ->
    forall txt sd, get txt (fold_left (add_sig sender) l d) = Some sd -> exists x s, get x sd = Some s.
  Proof. induction l as [|y l IH]; intros d Hd; simpl; [exact Hd|]. apply IH. apply add_filled. exact Hd. Qed.
  Lemma process_filled c x (st : state) : filled st -> filled (process_commit c x st).
  Proof.
    intros Fi. unfold process_commit. destruct (c_sigs c) as [l|]; [|exact Fi]. intros k d txt sd E G. cbn [b_sigs] in E.
    rewrite kget_kset in E. destruct (key_eqb k (c_key c)); [|apply (Fi _ _ _ _ E G)]. injection E as <-. revert G. apply adds_filled.
    intros txt' sd' G. destruct (kget (c_key c) (b_sigs st)) as [d|] eqn:E; [apply (Fi _ _ _ _ E G)|discriminate G].
  Qed.
  Lemma step_filled st e st' o : filled st -> step st e = Ok (st', o) -> filled st'.
  Proof.
    intros Fi E. destruct e as [pp applied|audit c x pp|signer audit pp|audit pp| |k|k]; cbn [Bls_Model.step] in E.
    - destruct (validate_pre_prepare verify_multi keys pp) as [ok|]; cbn in E; [|discriminate].
      destruct (ok && applied && master cfg); injection E as <- <-; [|exact Fi]. unfold process_pre_prepare. destruct (pp_multi pp); exact Fi.
    - destruct (if key_leb (c_key c) (b_last st) then Ok true else validate_commit verify keys int_of audit c x pp) as [[]|]; cbn in E;
        [| |discriminate]; injection E as <- <-; [|exact Fi]. apply process_filled. exact Fi.
    - destruct (update_commit str_of signer audit pp) as [l|]; cbn in E; [|discriminate]. injection E as <- <-. apply process_filled. exact Fi.
    - destruct (key_leb (pp_key pp) (b_last st)); [injection E as <- <-; exact Fi|].
      unfold process_order in E. destruct (negb (can_calculate (quo cfg) (pp_key pp) st)); [cbn in E; injection E as <- <-; exact Fi|].
      destruct (calculate aggregate int_of audit pp (pp_key pp) st); cbn in E; [|discriminate].
      destruct (negb (master cfg)); cbn in E; injection E as <- <-; exact Fi.
    - destruct (b_latest st); injection E as <- <-; exact Fi.
    - injection E as <- <-. intros k' d txt sd E G. cbn in E. rewrite (kget_filter (fun x => negb (key_leb x k))) in E.
      destruct (negb (key_leb k' k)); [apply (Fi _ _ _ _ E G)|discriminate].
    - injection E as <- <-. destruct (key_leb (b_last st) k); exact Fi.
  Qed.
  Lemma run_filled es : forall st o, run init es = Ok (st, o) -> filled st.
  Proof.
    induction es as [|e es IH] using rev_ind; intros st o E.
    - cbn in E. injection E as <- <-. intros k d txt sd X. discriminate X.
    - destruct (run_snoc _ _ _ _ _ E) as (st1 & o1 & o2 & A & B & ->). apply (step_filled _ _ _ _ (IH _ _ A) B).
  Qed.

  Lemma value_for_some t (pp : pre_prepare msig) lid r pool : regular t -> pp_pool pp = Val pool -> get lid (a_states t) = Some r ->
    exists h, get lid (a_ledgers t) = Some (Hash h) /\ value_for lid r (Some (Hash h)) pp = Ok (Value lid r pool h (pp_time pp)).
  Proof. intros Rg Ep G. destruct (Rg _ _ G) as (h & Hh). exists h. split; [exact Hh|]. unfold value_for. rewrite Ep. reflexivity. Qed.

  Lemma calculate_all_ok t (pp : pre_prepare msig) pool d : regular t -> pp_pool pp = Val pool ->
    (forall txt sd, In (txt, sd) d -> get (int_of txt) (a_states t) <> None) ->
    exists l, calculate_all aggregate int_of t pp d = Ok l /\
      forall txt sd, In (txt, sd) d -> exists v, value_of t pp (int_of txt) v /\ In (single aggregate sd v) l.
  Proof.
    intros Rg Ep. induction d as [|(txt, sd) d IH]; intros Hd.
    - exists []. split; [reflexivity|]. intros txt sd [].
    - destruct IH as (l & L1 & L2); [intros txt' sd' X; apply (Hd txt' sd'); right; exact X|].
      destruct (get (int_of txt) (a_states t)) as [r|] eqn:G; [|destruct (Hd txt sd (or_introl eq_refl) G)].
      destruct (value_for_some t pp _ _ _ Rg Ep G) as (h & H1 & H2). cbn [calculate_all]. rewrite G, H1, H2. cbn [bind]. rewrite L1. cbn [bind].
      eexists. split; [reflexivity|]. intros txt' sd' [X|X].
      + injection X as <- <-. eexists. split; [|left; reflexivity]. exists r, h, pool. auto.
      + destruct (L2 _ _ X) as (v & V1 & V2). exists v. split; [exact V1|]. right. exact V2.
  Qed.

  Lemma step_raises es o st e : inv es o st -> filled st -> fits ppof txn e -> tame e -> step st e <> Raise.
  Proof.
    intros Iv Fi Ft Ta. destruct e as [pp applied|audit c x pp|signer audit pp|audit pp| |k|k]; cbn [Bls_Model.step].
    - assert (A : validate_pre_prepare verify_multi keys pp <> Raise).
      { unfold validate_pre_prepare. destruct (pp_multi pp) as [ms|] eqn:Em; [|discriminate]. cbn in Ta. specialize (Ta ms).
        assert (T : forall m, In m ms -> keys (v_pool (ms_value m)) <> None) by (intros m Im; apply Ta; auto). clear Ta Em.
        induction ms as [|m ms IH]; simpl; [discriminate|]. unfold validate_multi_sig.
        destruct (keys (v_pool (ms_value m))) eqn:K; [|destruct (T m (or_introl eq_refl) K)]. cbn.
        destruct (verify_multi (ms_sig m) (ms_value m) (present o0 (ms_parts m))); [|discriminate]. apply IH. intros m' X. apply T. right. exact X. }
      destruct (validate_pre_prepare verify_multi keys pp) as [ok|]; [|congruence]. cbn. destruct (ok && applied && master cfg); discriminate.
    - assert (A : validate_commit verify keys int_of audit c x pp <> Raise).
      { unfold validate_commit. destruct (c_sigs c) as [l|]; [|discriminate]. destruct (audit_for audit pp) as [t|] eqn:Et; [|discriminate].
        destruct (Ta t Et) as (Rg & pool & Ep & Kp). induction l as [|(txt, s) l IH]; simpl; [discriminate|].
        destruct (get (int_of txt) (a_states t)) as [r|] eqn:G; [|discriminate].
        destruct (value_for_some t pp _ _ _ Rg Ep G) as (h & H1 & H2). rewrite H1, H2. cbn [bind]. unfold validate_signature. cbn [v_pool].
        destruct (keys pool) as [reg|]; [|congruence]. destruct (reg x); cbn [bind]; [|discriminate]. destruct (verify s _ v); [exact IH|discriminate]. }
      destruct (key_leb (c_key c) (b_last st)); cbn; [discriminate|].
      destruct (validate_commit verify keys int_of audit c x pp) as [[]|]; cbn; [discriminate|discriminate|congruence].
    - assert (A : update_commit str_of signer audit pp <> Raise).
      { destruct Ft as (F1 & F2). unfold update_commit. destruct signer as [sign|]; [|discriminate].
        destruct (audit_for audit pp) as [t|] eqn:Et; [|discriminate]. destruct (Ta t Et) as (Rg & pool & Ep & Kp).
        assert (B : forall l, (forall lid r, In (lid, r) l -> get lid (a_states t) = Some r) -> sign_all str_of sign t pp l <> Raise).
        { induction l as [|(lid, r) l IH]; intros Hl; simpl; [discriminate|].
          destruct (value_for_some t pp _ _ _ Rg Ep (Hl _ _ (or_introl eq_refl))) as (h & H1 & H2). rewrite H1, H2. cbn [bind].
          assert (C : sign_all str_of sign t pp l <> Raise) by (apply IH; intros lid' r' X; apply Hl; right; exact X).
          destruct (sign_all str_of sign t pp l); [discriminate|congruence]. }
        assert (C : sign_all str_of sign t pp (a_states t) <> Raise).
        { apply B. intros lid r X. apply in_get; [apply (states_nodup (pp_key pp)); congruence|exact X]. }
        destruct (sign_all str_of sign t pp (a_states t)); [discriminate|congruence]. }
      destruct (update_commit str_of signer audit pp); [discriminate|congruence].
    - destruct (key_leb (pp_key pp) (b_last st)) eqn:Lb; [discriminate|]. destruct Ft as (F1 & F2). unfold process_order.
      destruct (can_calculate (quo cfg) (pp_key pp) st); cbn [negb]; [|discriminate].
      assert (A : exists l, calculate aggregate int_of audit pp (pp_key pp) st = Ok l).
      { unfold calculate. destruct (kget (pp_key pp) (b_sigs st)) as [d|] eqn:Ek; [|eexists; reflexivity].
        destruct (audit_for audit pp) as [t|] eqn:Et; [|eexists; reflexivity]. destruct (Ta t Et) as (Rg & pool & Ep & _).
        destruct (calculate_all_ok t pp pool d Rg Ep) as (l & L & _); [|exists l; exact L].
        intros txt sd X. destruct (i_nd _ _ _ Iv _ _ Ek) as (N1 & _). pose proof (in_get _ _ _ N1 X) as G.
        destruct (Fi _ _ _ _ Ek G) as (x & s & Gx).
        assert (Hh : has d txt x s) by (exists sd; auto).
        destruct (i_good _ _ _ Iv _ _ _ _ _ t Ek Lb (eq_sym F2) Hh) as (v & (r & h & p & R & _) & _). congruence. }
      destruct A as (l & ->). cbn. destruct (negb (master cfg)); discriminate.
    - destruct (b_latest st); discriminate.
    - discriminate.
    - discriminate.
  Qed.

  Lemma run_not_raises es : (forall e, In e es -> fits ppof txn e /\ tame e) -> own_key verify keys (me cfg) es ->
    exists st o, run init es = Ok (st, o).
  Proof.
    induction es as [|e es IH] using rev_ind; intros Ft Ow; [exists init, []; reflexivity|].
    destruct IH as (st1 & o1 & A); [intros e' X; apply Ft; apply in_or_app; auto|exact (own_key_less _ _ Ow)|].
    rewrite (run_snoc_ok _ _ e _ _ A).
    assert (B : step st1 e <> Raise).
    { apply (step_raises es o1); [|exact (run_filled _ _ _ A)| |]; try (apply Ft; apply in_or_app; right; left; reflexivity).
      apply run_inv; [|exact (own_key_less _ _ Ow)|exact A]. intros e' X. apply Ft. apply in_or_app. auto. }
    destruct (step st1 e) as [(st2, o2)|]; [|congruence]. exists st2, (o1 ++ o2). reflexivity.
  Qed.

  (** ** with enough signatures there is a multi-signature *)
  Variable k : key.
  Variable t : audit_txn.
  Hypothesis txn_k : txn k = Some t.
  Let texts := map str_of (map fst (a_states t)).
  Definition gave0 (es : list event) (x : name) : Prop :=
    (exists audit c pp l, In (ECommit audit c x pp) es /\ c_key c = k /\ c_sigs c = Some l /\ validate_commit verify keys int_of audit c x pp = Ok true) \/
    (x = me cfg /\ exists sign audit pp, In (EOwn (Some sign) audit pp) es /\ pp_key pp = k).
  Definition dict_of (st : state) : sig_dict sig := match kget k (b_sigs st) with Some d => d | None => [] end.
  Record whole (es : list event) (st : state) : Prop := {
    w_texts : forall txt, In txt (map fst (dict_of st)) -> In txt texts;
    w_names : forall x txt, gave0 es x -> In txt texts -> exists s, has (dict_of st) txt x s }.

  Lemma add_texts sender (d : sig_dict sig) y txt : In txt (map fst (add_sig sender d y)) -> In txt (map fst d) \/ txt = fst y.
  Proof.
    unfold add_sig. intros I0. destruct (Nat.eq_dec txt (fst y)) as [E|N]; [auto|]. left.
    destruct (get txt d) as [sd|] eqn:G; [apply (in_map fst _ _ (get_in _ _ _ G))|].
    exfalso. assert (G' : get txt (set (fst y) (set sender (snd y) (get_or (fst y) ([] : dict sig) d)) d) = None).
    { rewrite get_set. destruct (Nat.eqb_spec txt (fst y)); [congruence|exact G]. }
    apply get_none in G'. contradiction.
  Qed.
  Lemma adds_texts sender l : forall (d : sig_dict sig) txt, In txt (map fst (fold_left (add_sig sender) l d)) -> In txt (map fst d) \/ In txt (map fst l).
  Proof.
    induction l as [|y l IH]; intros d txt I0; simpl in *; [auto|]. destruct (IH _ _ I0) as [A|A]; [|auto].
    destruct (add_texts _ _ _ _ A) as [B| ->]; auto.
  Qed.
  Lemma add_keeps sender (d : sig_dict sig) y txt x s : has d txt x s -> exists s', has (add_sig sender d y) txt x s'.
  Proof.
    intros (sd & A & B). unfold add_sig. destruct (Nat.eq_dec txt (fst y)) as [->|N].
    - destruct (Nat.eq_dec x sender) as [->|Nx].
      + exists (snd y). eexists. rewrite get_set, Nat.eqb_refl. split; [reflexivity|]. rewrite get_set, Nat.eqb_refl. reflexivity.
      + exists s. eexists. rewrite get_set, Nat.eqb_refl. split; [reflexivity|]. rewrite get_set.
        destruct (Nat.eqb_spec x sender); [congruence|]. unfold get_or. rewrite A. exact B.
    - exists s. exists sd. rewrite get_set. destruct (Nat.eqb_spec txt (fst y)); [congruence|]. auto.
  Qed.
  Lemma adds_keeps sender l : forall (d : sig_dict sig) txt x s, has d txt x s -> exists s', has (fold_left (add_sig sender) l d) txt x s'.
  Proof.
    induction l as [|y l IH]; intros d txt x s Hh; simpl; [exists s; exact Hh|]. destruct (add_keeps sender d y _ _ _ Hh) as (s' & H'). apply (IH _ _ _ _ H').
  Qed.
  Lemma adds_new sender l : forall (d : sig_dict sig) txt, In txt (map fst l) -> exists s, has (fold_left (add_sig sender) l d) txt sender s.
  Proof.
    induction l as [|y l IH]; intros d txt I0; simpl in *; [destruct I0|]. destruct I0 as [<-|I0]; [|apply IH; exact I0].
    apply adds_keeps with (s := snd y). unfold add_sig. eexists. rewrite get_set, Nat.eqb_refl. split; [reflexivity|].
    rewrite get_set, Nat.eqb_refl. reflexivity.
  Qed.

  Lemma dict_of_process c x (st : state) : dict_of (process_commit c x st) =
    match c_sigs c with Some l => if key_eqb k (c_key c) then fold_left (add_sig x) l (dict_of st) else dict_of st | None => dict_of st end.
  Proof.
    unfold dict_of, process_commit. destruct (c_sigs c) as [l|]; [|reflexivity]. cbn [b_sigs]. rewrite kget_kset.
    destruct (key_eqb_spec k (c_key c)) as [<-|N]; reflexivity.
  Qed.

  Lemma gave0_snoc es e x : gave0 (es ++ [e]) x -> gave0 es x \/ gave0 [e] x.
  Proof.
    intros [(audit & c & pp & l & A & B)|(E & sign & audit & pp & A & B)]; apply in_app_or in A as [A|A].
    - left. left. exists audit, c, pp, l. auto.
    - right. left. exists audit, c, pp, l. auto.
    - left. right. split; [exact E|]. exists sign, audit, pp. auto.
    - right. right. split; [exact E|]. exists sign, audit, pp. auto.
  Qed.

  Lemma step_whole es e st st' o : whole es st -> fits ppof txn e -> usual str_of k (map fst (a_states t)) (es ++ [e]) ->
    (forall k', e = EGc k' -> key_leb k k' = false) -> step st e = Ok (st', o) -> whole (es ++ [e]) st'.
  Proof.
    intros [W1 W2] Ft Us Gc E.
    assert (Same : dict_of st' = dict_of st -> (forall x, ~ gave0 [e] x) -> whole (es ++ [e]) st').
    { intros D N. constructor; rewrite D; [exact W1|]. intros x txt Hg I0. destruct (gave0_snoc _ _ _ Hg) as [A|A]; [auto|destruct (N x A)]. }
    assert (NoC : forall x, (forall audit c x pp, e <> ECommit audit c x pp) -> (forall sign audit pp, e <> EOwn (Some sign) audit pp) -> ~ gave0 [e] x).
    { intros x N1 N2 [(audit & c & pp & l & [A|[]] & _)|(_ & sign & audit & pp & [A|[]] & _)]; [apply (N1 _ _ _ _ A)|apply (N2 _ _ _ A)]. }
    destruct e as [pp applied|audit c x pp|signer audit pp|audit pp| |k'|k']; cbn [Bls_Model.step] in E.
    - destruct (validate_pre_prepare verify_multi keys pp) as [ok|]; cbn in E; [|discriminate].
      apply Same; [|intros x; apply NoC; discriminate].
      destruct (ok && applied && master cfg); injection E as <- <-; [|reflexivity]. unfold process_pre_prepare. destruct (pp_multi pp); reflexivity.
    - destruct (if key_leb (c_key c) (b_last st) then Ok true else validate_commit verify keys int_of audit c x pp) as [[]|] eqn:V; cbn in E;
        [| |discriminate]; injection E as <- <-.
      + constructor; rewrite dict_of_process.
        * intros txt I0. destruct (c_sigs c) as [l|] eqn:Ec; [|auto]. destruct (key_eqb_spec k (c_key c)) as [Ek|N]; [|auto].
          destruct (adds_texts _ _ _ _ I0) as [A|A]; [auto|]. apply (Us audit c x pp l); auto. apply in_or_app. right. left. reflexivity.
        * intros y txt Hg I0. destruct (gave0_snoc _ _ _ Hg) as [A|A].
          -- destruct (W2 y txt A I0) as (s & Hh). destruct (c_sigs c) as [l|]; [|exists s; exact Hh].
             destruct (key_eqb k (c_key c)); [|exists s; exact Hh]. apply adds_keeps with s. exact Hh.
          -- destruct A as [(audit' & c' & pp' & l & [A|[]] & A1 & A2 & _)|(_ & sign & audit' & pp' & [A|[]] & _)]; [|discriminate A].
             injection A as <- <- <- <-. rewrite A2. destruct (key_eqb_spec k (c_key c)) as [_|N]; [|congruence].
             apply adds_new. apply (Us audit c x pp l); auto. apply in_or_app. right. left. reflexivity.
      + apply Same; [reflexivity|]. intros y [(audit' & c' & pp' & l & [A|[]] & A1 & A2 & A3)|(_ & sign & audit' & pp' & [A|[]] & _)]; [|discriminate A].
        injection A as <- <- <- <-. rewrite A3 in V. destruct (key_leb (c_key c) (b_last st)); discriminate V.
    - destruct Ft as (F1 & F2). destruct (update_commit str_of signer audit pp) as [l|] eqn:U; cbn in E; [|discriminate]. injection E as <- <-.
      assert (Hl : forall l', l = Some l' -> pp_key pp = k -> map fst l' = texts).
      { intros l' -> Ek. unfold update_commit in U. destruct signer as [sign|]; [|discriminate]. rewrite F2, Ek, txn_k in U.
        destruct (sign_all str_of sign t pp (a_states t)) as [d|] eqn:Sg; cbn in U; [|discriminate]. injection U as <-. apply (sign_all_texts _ _ _ _ _ Sg). }
      constructor; rewrite dict_of_process; cbn [c_sigs]; change (c_key (Commit (pp_view pp) (pp_seq pp) l)) with (pp_key pp).
      + intros txt I0. destruct l as [l'|]; [|auto]. destruct (key_eqb_spec k (pp_key pp)) as [Ek|N]; [|auto].
        destruct (adds_texts _ _ _ _ I0) as [A|A]; [auto|]. rewrite (Hl l' eq_refl (eq_sym Ek)) in A. exact A.
      + intros y txt Hg I0. destruct (gave0_snoc _ _ _ Hg) as [A|A].
        * destruct (W2 y txt A I0) as (s & Hh). destruct l as [l'|]; [|exists s; exact Hh].
          destruct (key_eqb k (pp_key pp)); [|exists s; exact Hh]. apply adds_keeps with s. exact Hh.
        * destruct A as [(audit' & c' & pp' & l0 & [A|[]] & _)|(-> & sign & audit' & pp' & [A|[]] & Ek)]; [discriminate A|].
          injection A as -> <- <-. unfold update_commit in U. rewrite F2, Ek, txn_k in U.
          destruct (sign_all str_of sign t pp (a_states t)) as [d|] eqn:Sg; cbn in U; [|discriminate]. injection U as <-.
          destruct (key_eqb_spec k (pp_key pp)) as [_|N]; [|congruence]. apply adds_new. rewrite (Hl d eq_refl Ek). exact I0.
    - apply Same; [|intros x; apply NoC; discriminate]. destruct (key_leb (pp_key pp) (b_last st)); [injection E as <- <-; reflexivity|].
      unfold process_order in E. destruct (negb (can_calculate (quo cfg) (pp_key pp) st)); [cbn in E; injection E as <- <-; reflexivity|].
      destruct (calculate aggregate int_of audit pp (pp_key pp) st); cbn in E; [|discriminate].
      destruct (negb (master cfg)); cbn in E; injection E as <- <-; reflexivity.
    - apply Same; [|intros x; apply NoC; discriminate]. destruct (b_latest st); injection E as <- <-; reflexivity.
    - apply Same; [|intros x; apply NoC; discriminate]. injection E as <- <-. unfold dict_of, gc. cbn [b_sigs].
      rewrite (kget_filter (fun x => negb (key_leb x k'))). rewrite (Gc k' eq_refl). reflexivity.
    - apply Same; [|intros x; apply NoC; discriminate]. injection E as <- <-. destruct (key_leb (b_last st) k'); reflexivity.
  Qed.

  Lemma run_whole es : (forall e, In e es -> fits ppof txn e) -> usual str_of k (map fst (a_states t)) es ->
    (forall k', In (EGc k') es -> key_leb k k' = false) -> forall st o, run init es = Ok (st, o) -> whole es st.
  Proof.
    induction es as [|e es IH] using rev_ind; intros Ft Us Gc st o E.
    - cbn in E. injection E as <- <-. constructor; [intros txt []|]. intros x txt [(audit & c & pp & l & [] & _)|(_ & sign & audit & pp & [] & _)].
    - destruct (run_snoc _ _ _ _ _ E) as (st1 & o1 & o2 & A & B & ->). apply (step_whole es e st1 st o2); auto.
      + apply IH with o1; auto.
        * intros e' X. apply Ft. apply in_or_app. auto.
        * intros audit c x pp l X. apply (Us audit c x pp l). apply in_or_app. auto.
        * intros k' X. apply Gc. apply in_or_app. auto.
      + apply Ft. apply in_or_app. right. left. reflexivity.
      + intros k' ->. apply Gc. apply in_or_app. right. left. reflexivity.
  Qed.

  Lemma whole_order es o st audit pp signers : inv es o st -> whole es st -> fits ppof txn (EOrder audit pp : event) -> pp_key pp = k ->
    well_founded keys audit pp -> key_leb k (b_last st) = false -> master cfg = true ->
    NoDup signers -> bls_signatures (quo cfg) <= length signers -> signers <> [] -> (forall x, In x signers -> gave0 es x) ->
    exists st' l, step st (EOrder audit pp) = Ok (st', map (OMulti pp) l) /\
      forall lid r, get lid (a_states t) = Some r -> exists m, In m l /\ v_ledger (ms_value m) = lid /\ v_state (ms_value m) = r /\
        incl signers (ms_parts m) /\ exists m', get r (b_store st') = Some m' /\ v_state (ms_value m') = r.
  Proof.
    intros Iv [W1 W2] (F1 & F2) Ek Wf Lb Ma Nd Q Ne Sg. cbn [Bls_Model.step]. rewrite Ek, Lb. rewrite Ek, txn_k in F2.
    destruct (Wf t F2) as (Rg & pool & Ep & _).
    assert (Hlen : forall txt sd, get txt (dict_of st) = Some sd -> incl signers (map fst sd)).
    { intros txt sd G x X. assert (In txt texts) as T by (apply W1; apply (in_map fst _ _ (get_in _ _ _ G))).
      destruct (W2 x txt (Sg x X) T) as (s & sd' & A & B). assert (sd' = sd) as -> by congruence. apply (in_map fst _ _ (get_in _ _ _ B)). }
    assert (T0 : forall txt sd, In (txt, sd) (dict_of st) -> get (int_of txt) (a_states t) <> None).
    { intros txt sd X. apply (in_map fst) in X. apply W1 in X. unfold texts in X. apply in_map_iff in X as (lid & L1 & L2). cbn in L1. subst txt.
      rewrite int_str. intros G. apply get_none in G. contradiction. }
    destruct (calculate_all_ok t pp pool (dict_of st) Rg Ep T0) as (l & L1 & L2).
    destruct (kget k (b_sigs st)) as [d|] eqn:Ed.
    - assert (Edd : dict_of st = d) by (unfold dict_of; rewrite Ed; reflexivity).
      assert (Cc : can_calculate (quo cfg) k st = true).
      { unfold can_calculate. rewrite Ed. apply forallb_forall. intros (txt, sd) X. apply Nat.leb_le. cbn [snd].
        destruct (i_nd _ _ _ Iv _ _ Ed) as (N1 & _). pose proof (in_get _ _ _ N1 X) as G. rewrite <- Edd in G.
        pose proof (NoDup_incl_length Nd (Hlen _ _ G)) as Le. rewrite map_length in Le. lia. }
      unfold process_order. rewrite Ek, Cc. cbn [negb]. unfold calculate. rewrite Ed, F2, <- Edd, L1, Ma. cbn.
      eexists. exists l. split; [reflexivity|]. intros lid r G. cbn [b_store].
      assert (T1 : In (str_of lid) texts).
      { unfold texts. apply in_map. apply (in_map fst _ _ (get_in _ _ _ G)). }
      destruct signers as [|x0 signers]; [congruence|].
      destruct (W2 x0 (str_of lid) (Sg x0 (or_introl eq_refl)) T1) as (s & sd & A & B).
      destruct (L2 _ _ (get_in _ _ _ A)) as (v & V1 & V2). rewrite int_str in V1. destruct V1 as (r' & h & p & R1 & _ & _ & ->).
      assert (r' = r) as -> by congruence. eexists. split; [exact V2|]. split; [reflexivity|]. split; [reflexivity|].
      split; [exact (Hlen _ _ A)|]. clear -V2.
      assert (P : forall l (stt : dict (multi_sig msig)), (exists m, In m l /\ v_state (ms_value m) = r) \/ (exists m', get r stt = Some m' /\ v_state (ms_value m') = r) ->
        exists m', get r (fold_left put l stt) = Some m' /\ v_state (ms_value m') = r).
      { clear. induction l as [|y l IH]; intros stt [(m & M & E)|E]; simpl; [destruct M| |apply IH|apply IH].
        - exact E.
        - destruct M as [<-|M]; [|left; exists m; auto]. right. exists y. unfold put. rewrite get_set, E, Nat.eqb_refl. auto.
        - right. unfold put. destruct E as (m' & E1 & E2). rewrite get_set. destruct (Nat.eqb_spec r (v_state (ms_value y))) as [E|N]; [exists y; auto|exists m'; auto]. }
      apply P. left. eexists. split; [exact V2|reflexivity].
    - exists (State (b_sigs st) (b_latest st) (b_store st) k), []. split.
      + unfold process_order, can_calculate. rewrite Ek, Ed. reflexivity.
      + intros lid r G. destruct signers as [|x0 signers]; [congruence|]. exfalso.
        assert (T1 : In (str_of lid) texts) by (unfold texts; apply in_map; apply (in_map fst _ _ (get_in _ _ _ G))).
        destruct (W2 x0 _ (Sg x0 (or_introl eq_refl)) T1) as (s & sd & A & _). unfold dict_of in A. rewrite Ed in A. discriminate A.
  Qed.

  Lemma gave_gave0 es x : (forall e, In e es -> fits ppof txn e) -> gave verify keys int_of (me cfg) k t es x -> gave0 es x.
  Proof.
    intros Ft [(audit & c & pp & l & A & B & C & D)|R]; [|right; exact R]. left. exists audit, c, pp, l. repeat split; auto.
    destruct (Ft _ A) as (F1 & F2 & F3). unfold validate_commit. rewrite C, F3, B, txn_k. clear -D.
    induction l as [|(txt, s) l IH]; simpl; [reflexivity|].
    destruct (D txt s (or_introl eq_refl)) as (v & (r & h & pool & V1 & V2 & V3 & ->) & reg & kk & S1 & S2 & S3).
    rewrite V1, V2. unfold value_for. rewrite V3. cbn [bind]. unfold validate_signature. rewrite S1, S2. cbn [bind]. rewrite S3.
    apply IH. intros txt' s' X. apply D. right. exact X.
  Qed.

  Lemma run_pending es : forall st o, pending k es -> run init es = Ok (st, o) -> key_leb k (b_last st) = false.
  Proof.
    induction es as [|e es IH] using rev_ind; intros st o (P0 & P) E; [cbn in E; injection E as <- <-; exact P0|].
    destruct (run_snoc _ _ _ _ _ E) as (st1 & o1 & o2 & A & B & ->).
    assert (L : key_leb k (b_last st1) = false). { apply IH with o1; [|exact A]. split; [exact P0|]. intros e' X. apply P. apply in_or_app. auto. }
    assert (Pe := P e (in_or_app es [e] e (or_intror (or_introl eq_refl)))). clear IH P E A.
    destruct e as [pp applied|audit c x pp|signer audit pp|audit pp| |k'|k']; cbn [Bls_Model.step] in B.
    - destruct (validate_pre_prepare verify_multi keys pp) as [ok|]; cbn in B; [|discriminate].
      destruct (ok && applied && master cfg); injection B as <- <-; [|exact L]. unfold process_pre_prepare. destruct (pp_multi pp); exact L.
    - destruct (if key_leb (c_key c) (b_last st1) then Ok true else validate_commit verify keys int_of audit c x pp) as [[]|]; cbn in B;
        [| |discriminate]; injection B as <- <-; [|exact L]. unfold process_commit. destruct (c_sigs c); exact L.
    - destruct (update_commit str_of signer audit pp) as [l|]; cbn in B; [|discriminate]. injection B as <- <-. unfold process_commit. destruct l; exact L.
    - destruct (key_leb (pp_key pp) (b_last st1)); [injection B as <- <-; exact L|].
      destruct (process_order aggregate int_of (quo cfg) (master cfg) audit pp st1) as [(st2, l)|]; cbn in B; [|discriminate].
      injection B as <- <-. exact Pe.
    - destruct (b_latest st1); injection B as <- <-; exact L.
    - injection B as <- <-. exact L.
    - injection B as <- <-. destruct (key_leb (b_last st1) k'); [exact Pe|exact L].
  Qed.

  Lemma run_complete es audit pp signers : (forall e, In e es -> fits ppof txn e) -> own_key verify keys (me cfg) es ->
    usual str_of k (map fst (a_states t)) es -> pending k es ->
    fits ppof txn (EOrder audit pp : event) -> pp_key pp = k -> well_founded keys audit pp -> master cfg = true ->
    NoDup signers -> bls_signatures (quo cfg) <= length signers -> signers <> [] ->
    (forall x, In x signers -> gave verify keys int_of (me cfg) k t es x) ->
    forall st o, run init es = Ok (st, o) ->
    exists st' l, run init (es ++ [EOrder audit pp]) = Ok (st', o ++ map (OMulti pp) l) /\
      forall lid r, get lid (a_states t) = Some r -> exists m, In m l /\ v_ledger (ms_value m) = lid /\ v_state (ms_value m) = r /\
        incl signers (ms_parts m) /\ exists m', get r (b_store st') = Some m' /\ v_state (ms_value m') = r.
  Proof.
    intros Ft Ow Us Pe Fo Ek Wf Ma Nd Q Ne Sg st o E.
    destruct (whole_order es o st audit pp signers) as (st' & l & A & B); auto.
    - apply run_inv; auto.
    - apply run_whole with o; auto. intros k' X. apply (proj2 Pe (EGc k') X).
    - apply run_pending with es o; auto.
    - intros x X. apply gave_gave0; auto.
    - exists st', l. split; [|exact B]. rewrite (run_snoc_ok _ _ _ _ _ E), A. reflexivity.
  Qed.

  Lemma shared_valid es : forall st o m, run init es = Ok (st, o) -> In (OShared m) o ->
    validate_multi_sig verify_multi keys m = Ok true /\ exists pp ms, In (EPrePrepare pp true) es /\ pp_multi pp = Some ms /\ In m ms.
  Proof.
    induction es as [|e es IH] using rev_ind; intros st o m E I0; [cbn in E; injection E as <- <-; destruct I0|].
    destruct (run_snoc _ _ _ _ _ E) as (st1 & o1 & o2 & A & B & ->).
    apply in_app_or in I0 as [I0|I0].
    { destruct (IH _ _ _ A I0) as (V & pp & ms & X & Y). split; [exact V|]. exists pp, ms. split; [apply in_or_app; auto|exact Y]. }
    clear IH E A. destruct e as [pp applied|audit c x pp|signer audit pp|audit pp| |k'|k']; cbn [Bls_Model.step] in B.
    - destruct (validate_pre_prepare verify_multi keys pp) as [ok|] eqn:V; cbn in B; [|discriminate].
      destruct (ok && applied && master cfg) eqn:C; injection B as <- <-; [|destruct I0].
      apply andb_true_iff in C as (C & _). apply andb_true_iff in C as (-> & ->).
      unfold validate_pre_prepare in V. destruct (pp_multi pp) as [ms|] eqn:Em; [|destruct I0].
      apply in_map_iff in I0 as (m' & X & Y). injection X as ->. split.
      + revert V Y. clear. induction ms as [|a ms IH]; intros V []; cbn in V; destruct (validate_multi_sig verify_multi keys a) as [[]|] eqn:W; try discriminate.
        * subst a. exact W.
        * apply IH; assumption.
      + exists pp, ms. split; [apply in_or_app; right; left; reflexivity|auto].
    - destruct (if key_leb (c_key c) (b_last st1) then Ok true else validate_commit verify keys int_of audit c x pp) as [[]|]; cbn in B;
        [| |discriminate]; injection B as <- <-; [destruct I0|destruct I0 as [X|[]]; discriminate X].
    - destruct (update_commit str_of signer audit pp) as [l|]; cbn in B; [|discriminate]. injection B as <- <-. destruct I0 as [X|[]]; discriminate X.
    - destruct (key_leb (pp_key pp) (b_last st1)); [injection B as <- <-; destruct I0|].
      destruct (process_order aggregate int_of (quo cfg) (master cfg) audit pp st1) as [(st2, l)|]; cbn in B; [|discriminate].
      injection B as <- <-. apply in_map_iff in I0 as (m' & X & _). discriminate X.
    - destruct (b_latest st1); injection B as <- <-; [destruct I0 as [X|[]]; discriminate X|destruct I0].
    - injection B as <- <-. destruct I0.
    - injection B as <- <-. destruct I0.
  Qed.
End Proofs.
