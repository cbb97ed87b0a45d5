(** Property C33: batching of outgoing messages loses, reorders and duplicates nothing. *)
From Coq Require Import List Arith Bool Lia Permutation.
From Verif Require Import Base Batch_Model.
Import ListNotations.
Local Open Scope res_scope.

Section Split.
  Variables (M S : Type).
  Variable make_batch : list M -> S.
  Variable len : S -> nat.
  Variable under_limit : nat -> bool.
  Notation fill := (fill M S make_batch len under_limit).
  Notation split_loop := (split_loop M S make_batch len under_limit).
  Notation split_messages_on_batches := (split_messages_on_batches M S make_batch len under_limit).

  Let fits (m : M) : Prop := under_limit (len (make_batch [m])) = true.
  Let good (g : list M) : Prop := under_limit (len (make_batch g)) = true.

  Lemma fill_ok : forall msgs taken, taken <> [] ->
    (under_limit (len (make_batch taken)) = true \/ (exists k o, taken = k ++ [o] /\ k <> [] /\ good k /\ fits o)) ->
    match fill msgs (len (make_batch taken)) taken with
    | None => exists m, In m msgs /\ ~ fits m
    | Some (bl, tk, rest) =>
        tk ++ rest = taken ++ msgs /\ tk <> [] /\ bl = len (make_batch tk) /\
        (good tk \/ exists k o, tk = k ++ [o] /\ k <> [] /\ good k /\ fits o)
    end.
  Proof.
    induction msgs as [|m msgs IH]; intros taken NE G; cbn [Batch_Model.fill].
    - repeat split; auto.
    - destruct (under_limit (len (make_batch taken))) eqn:U.
      + destruct (under_limit (len (make_batch [m]))) eqn:F.
        * assert (NE' : taken ++ [m] <> []) by (destruct taken; discriminate).
          specialize (IH (taken ++ [m]) NE').
          destruct (fill msgs (len (make_batch (taken ++ [m]))) (taken ++ [m])) as [[[bl tk] rest]|].
          -- destruct IH as (A & B & C & D); [right; exists taken, m; auto|].
             rewrite <- app_assoc in A. auto.
          -- destruct IH as (x & Hx & N); [right; exists taken, m; auto|]. exists x. split; auto. right. auto.
        * exists m. split; [left; auto|]. unfold fits. congruence.
      + repeat split; auto. destruct G as [G|G]; auto. congruence.
  Qed.

  Hypothesis empty_fits : under_limit 0 = true.

  (** What one iteration of the outer loop does with a non-empty queue. *)
  Lemma fill_first m msgs :
    match fill (m :: msgs) 0 [] with
    | None => exists x, In x (m :: msgs) /\ ~ fits x
    | Some (bl, tk, rest) =>
        tk ++ rest = m :: msgs /\ tk <> [] /\ bl = len (make_batch tk) /\
        (good tk \/ exists k o, tk = k ++ [o] /\ k <> [] /\ good k /\ fits o)
    end.
  Proof.
    cbn [Batch_Model.fill]. rewrite empty_fits. destruct (under_limit (len (make_batch [m]))) eqn:F.
    - pose proof (fill_ok msgs [m] ltac:(discriminate) (or_introl F)) as P.
      change (([] ++ [m])) with [m].
      destruct (fill msgs (len (make_batch [m])) [m]) as [[[bl tk] rest]|].
      + exact P.
      + destruct P as (x & Hx & N). exists x. split; auto. right. auto.
    - exists m. split; [left; auto|]. unfold fits. congruence.
  Qed.

  (** The batches [bs] are made of the groups [gs]. *)
  Definition made (gs : list (list M)) : list (S * nat) := map (fun g => (make_batch g, length g)) gs.

  Lemma loop_ok : forall fuel msgs acc, length msgs <= fuel ->
    (Forall fits msgs /\ exists gs, split_loop fuel msgs acc = Ok (Some (acc ++ made gs)) /\
        concat gs = msgs /\ Forall (fun g => g <> [] /\ good g) gs)
    \/ ((exists m, In m msgs /\ ~ fits m) /\ split_loop fuel msgs acc = Ok None).
  Proof.
    induction fuel as [|fuel IH]; intros msgs acc L.
    - destruct msgs; [|simpl in L; lia]. left. split; [constructor|]. exists []. simpl. rewrite app_nil_r. auto.
    - destruct msgs as [|m msgs].
      { left. split; [constructor|]. exists []. simpl. rewrite app_nil_r. auto. }
      pose proof (fill_first m msgs) as P. cbn [Batch_Model.split_loop].
      destruct (fill (m :: msgs) 0 []) as [[[bl tk] rest]|] eqn:EF; [|right; auto].
      destruct P as (A & B & -> & D).
      destruct (under_limit (len (make_batch tk))) eqn:U.
      + assert (LR : length rest <= fuel).
        { apply (f_equal (@length M)) in A. rewrite app_length in A. simpl in *.
          destruct tk; [congruence|]. simpl in *. lia. }
        assert (FT : Forall fits (m :: msgs) -> Forall fits rest).
        { rewrite <- A. intros F. apply Forall_app in F. apply F. }
        destruct (IH rest (acc ++ [(make_batch tk, length tk)]) LR) as [(F & gs & E & C & G)|((x & Hx & N) & E)].
        * left. split.
          -- rewrite <- A. apply Forall_app. split; auto. clear -EF A B F empty_fits.
             apply Forall_forall. intros x Hx.
             assert (Q : forall ms b t bl' tk' rest', fill ms b t = Some (bl', tk', rest') -> Forall fits t -> Forall fits tk').
             { induction ms as [|y ms IHm]; intros b t bl' tk' rest' E FF; cbn [Batch_Model.fill] in E.
               - inversion E; subst; auto.
               - destruct (under_limit b); [|inversion E; subst; auto].
                 destruct (under_limit (len (make_batch [y]))) eqn:Fy; [|discriminate].
                 eapply IHm; eauto. apply Forall_app. split; auto. }
             specialize (Q _ _ _ _ _ _ EF (Forall_nil _)). rewrite Forall_forall in Q. auto.
          -- exists (tk :: gs). rewrite E, <- app_assoc. simpl. rewrite C, A. auto.
        * right. split; [|exact E]. exists x. split; auto. rewrite <- A. apply in_or_app. auto.
      + destruct D as [D|(k & o & -> & NK & GK & FO)]; [unfold good in D; congruence|].
        rewrite rev_app_distr. cbn [rev app]. rewrite rev_involutive.
        assert (LR : length (o :: rest) <= fuel).
        { apply (f_equal (@length M)) in A. rewrite !app_length in A. simpl in *.
          destruct k; [congruence|]. simpl in *. lia. }
        assert (A' : k ++ (o :: rest) = m :: msgs) by (rewrite <- A, <- app_assoc; reflexivity).
        assert (FK : Forall fits k).
        { assert (Q : forall ms b t bl' tk' rest', fill ms b t = Some (bl', tk', rest') -> Forall fits t -> Forall fits tk').
             { induction ms as [|y ms IHm]; intros b t bl' tk' rest' E FF; cbn [Batch_Model.fill] in E.
               - inversion E; subst; auto.
               - destruct (under_limit b); [|inversion E; subst; auto].
                 destruct (under_limit (len (make_batch [y]))) eqn:Fy; [|discriminate].
                 eapply IHm; eauto. apply Forall_app. split; auto. }
          specialize (Q _ _ _ _ _ _ EF (Forall_nil _)). apply Forall_app in Q. apply Q. }
        destruct (IH (o :: rest) (acc ++ [(make_batch k, length k)]) LR) as [(F & gs & E & C & G)|((x & Hx & N) & E)].
        * left. split; [rewrite <- A'; apply Forall_app; auto|].
          exists (k :: gs). rewrite E, <- app_assoc. simpl. rewrite C, A'. auto.
        * right. split; [|exact E]. exists x. split; auto. rewrite <- A'. apply in_or_app. auto.
  Qed.

  (** When every message fits by itself, the batches are those of a cutting of the queue into
      consecutive non-empty groups: nothing lost, reordered or duplicated; each batch is under
      the limit and reported with the number of its messages. *)
  Theorem C33_split : forall msgs, msgs <> [] ->
    (forall m, In m msgs -> under_limit (len (make_batch [m])) = true) ->
    exists groups, split_messages_on_batches msgs = Ok (Some (made groups)) /\
      concat groups = msgs /\ (forall g, In g groups -> g <> [] /\ under_limit (len (make_batch g)) = true).
  Proof.
    intros msgs NE F. unfold Batch_Model.split_messages_on_batches.
    destruct (loop_ok (length msgs) msgs [] (le_n _)) as [(_ & gs & E & C & G)|((x & Hx & N) & E)].
    - exists gs. rewrite E. cbn [bind]. rewrite app_nil_l.
      destruct gs as [|g gs]; [simpl in C; congruence|]. split; [reflexivity|]. split; auto.
      rewrite Forall_forall in G. exact G.
    - exfalso. apply N. apply F. auto.
  Qed.

  (** When some message does not fit by itself, no batch at all is made. *)
  Theorem C33_split_too_long : forall msgs m, In m msgs -> under_limit (len (make_batch [m])) = false ->
    split_messages_on_batches msgs = Ok None.
  Proof.
    intros msgs m Hm F. unfold Batch_Model.split_messages_on_batches.
    destruct (loop_ok (length msgs) msgs [] (le_n _)) as [(FA & _)|(_ & E)].
    - exfalso. rewrite Forall_forall in FA. specialize (FA _ Hm). unfold fits in FA. congruence.
    - rewrite E. reflexivity.
  Qed.

  Theorem C33_split_nothing : split_messages_on_batches [] = Ok (Some [(make_batch [], 0)]).
  Proof. reflexivity. Qed.
End Split.

(** ** The whole outbox of a remote *)
Section Flush.
  Variable S : Type.
  Variable pack : list S -> S.
  Variable len : S -> nat.
  Variable limit : nat.

  (** A receiver: [unpack w] lists the messages of a Batch, or is None for any other message. *)
  Variable unpack : S -> option (list S).
  Hypothesis unpack_pack : forall l, unpack (pack l) = Some l.

  Definition received (w : S) : list S := match unpack w with Some l => l | None => [w] end.

  (** Messages that are no batches themselves and fit the limit arrive exactly as enqueued, in
      order, in transmissions that fit the limit, whether batching is on or off. *)
  Theorem C33_flush : forall enabled msgs,
    (forall m, In m msgs -> unpack m = None /\ len m <= limit) ->
    exists out, flush S pack len limit enabled msgs = Ok out /\
      flat_map (fun s => received (payload S s)) out = msgs /\
      (forall s, In s out -> len (payload S s) <= limit).
  Proof.
    intros enabled msgs F. unfold flush. destruct (enabled && (1 <? length msgs)) eqn:E.
    - assert (NE : msgs <> []) by (destruct msgs; [rewrite andb_false_r in E; discriminate|discriminate]).
      destruct (C33_split S S (b_make_batch S pack) len (len_ok limit) ltac:(reflexivity) msgs NE) as (gs & EQ & C & G).
      { intros m Hm. simpl. apply Nat.leb_le. apply F. auto. }
      rewrite EQ. cbn [bind]. eexists. split; [reflexivity|]. split.
      + rewrite <- C. assert (FG : forall g m, In g gs -> In m g -> unpack m = None).
        { intros g m Hg Hm. apply F. rewrite <- C. apply in_concat. eauto. }
        assert (NG : forall g, In g gs -> g <> []) by (intros g Hg; apply G; auto).
        clear -FG NG unpack_pack. induction gs as [|g gs IH]; [reflexivity|].
        cbn [made map flat_map concat]. f_equal.
        * cbn [fst payload]. unfold received. specialize (NG g (or_introl eq_refl)).
          destruct g as [|a [|b g]]; [congruence| |].
          -- cbn [b_make_batch]. rewrite (FG [a] a); simpl; auto.
          -- cbn [b_make_batch]. rewrite unpack_pack. reflexivity.
        * apply IH; intros; [eapply FG; [right; eauto|auto]|apply NG; right; auto].
      + intros s Hs. apply in_map_iff in Hs as ([b n] & <- & Hb). unfold made in Hb.
        apply in_map_iff in Hb as (g & Eg & Hg). inversion Eg; subst. cbn [payload fst].
        apply Nat.leb_le. apply G. auto.
    - eexists. split; [reflexivity|]. split.
      + clear E. induction msgs as [|m msgs IH]; [reflexivity|]. cbn [map flat_map payload]. unfold received at 1.
        destruct (F m (or_introl eq_refl)) as [-> _]. cbn [app]. f_equal. apply IH. intros. apply F. right. auto.
      + intros s Hs. apply in_map_iff in Hs as (m & <- & Hm). cbn [payload]. apply F. auto.
  Qed.

  (** Finding: one message over the limit in an outbox makes flush drop all of it silently
      (such messages are refused before being enqueued by [send]). *)
  Theorem C33_flush_drops_all : forall msgs m, 1 < length msgs -> In m msgs -> limit < len m ->
    flush S pack len limit true msgs = Ok [].
  Proof.
    intros msgs m L Hm Hl. unfold flush. assert (1 <? length msgs = true) as -> by (apply Nat.ltb_lt; auto).
    cbn [andb]. rewrite (C33_split_too_long S S (b_make_batch S pack) len (len_ok limit) ltac:(reflexivity) msgs m);
      auto. simpl. apply Nat.leb_gt. auto.
  Qed.
End Flush.

(** ** Splitting a large message *)
Section Prepare.
  Variables (M S : Type).
  Variable serialize : M -> S.
  Variable len : S -> nat.
  Variable limit : nat.
  Variable sp : M -> option (list M).

  (** [Parts msg ms]: [ms] is [msg] cut into pieces by repeated splitting of oversized pieces,
      up to order. *)
  Inductive Parts : list M -> list M -> Prop :=
  | P_nil : Parts [] []
  | P_fits m ms r : len (serialize m) <= limit -> Parts ms r -> Parts (m :: ms) (m :: r)
  | P_split m ps ms r : limit < len (serialize m) -> sp m = Some ps -> Parts (ps ++ ms) r -> Parts (m :: ms) r
  | P_perm a b r : Permutation a b -> Parts a r -> Parts b r.

  Lemma Parts_fit a r : Parts a r -> Forall (fun m => len (serialize m) <= limit) r.
  Proof. induction 1; auto. Qed.

  (** If splitting succeeds, what is enqueued are the serialized pieces, each under the limit. *)
  Theorem C33_prepare : forall fuel msg out,
    prepare_for_sending M S serialize len limit (Some sp) fuel msg = Ok (Some out) ->
    exists pieces, Parts [msg] pieces /\ out = map serialize pieces /\
      (forall s, In s out -> len s <= limit).
  Proof.
    assert (G : forall fuel large fine out,
      prepare_loop M S serialize len limit (Some sp) fuel large fine = Ok (Some out) ->
      exists pieces, Parts large pieces /\ out = fine ++ map serialize pieces).
    { induction fuel as [|fuel IH]; intros large fine out E.
      - destruct large; [|discriminate]. inversion E; subst. exists []. split; [constructor|]. rewrite app_nil_r. auto.
      - destruct large as [|m large]; [inversion E; subst; exists []; split; [constructor|rewrite app_nil_r; auto]|].
        cbn [prepare_loop] in E. unfold len_ok in E. destruct (Nat.leb_spec (len (serialize m)) limit).
        + apply IH in E as (ps & P & ->). exists (m :: ps). split; [constructor; auto|].
          rewrite <- app_assoc. reflexivity.
        + destruct (sp m) as [parts|] eqn:Em; [|discriminate].
          apply IH in E as (ps & P & ->). exists ps. split; auto.
          eapply P_split; eauto. eapply P_perm; [|exact P]. apply Permutation_app_tail, Permutation_sym, Permutation_rev. }
    intros fuel msg out E. apply G in E as (ps & P & ->). exists ps. split; auto. split; auto.
    intros s Hs. apply Parts_fit in P. rewrite Forall_forall in P.
    apply in_map_iff in Hs as (m & <- & Hm). auto.
  Qed.

  (** It always comes to an end when the splitter makes pieces that are smaller in some measure. *)
  Theorem C33_prepare_terminates : forall (size : M -> nat),
    (forall m ps, sp m = Some ps -> list_sum (map size ps) < size m) ->
    forall msg fuel, size msg + 1 <= fuel -> (forall m, 1 <= size m) ->
    exists r, prepare_for_sending M S serialize len limit (Some sp) fuel msg = Ok r.
  Proof.
    intros size D.
    assert (G : forall fuel large fine, list_sum (map size large) <= fuel -> (forall m, 1 <= size m) ->
      exists r, prepare_loop M S serialize len limit (Some sp) fuel large fine = Ok r).
    { induction fuel as [|fuel IH]; intros large fine L P.
      - destruct large as [|m large]; [simpl; eauto|]. simpl in L. specialize (P m). lia.
      - destruct large as [|m large]; [simpl; eauto|]. cbn [prepare_loop]. simpl in L. pose proof (P m).
        destruct (len_ok limit (len (serialize m))).
        + apply IH; auto. lia.
        + destruct (sp m) as [ps|] eqn:Em; [|eauto]. apply IH; auto.
          rewrite map_app, list_sum_app. pose proof (D _ _ Em).
          assert (list_sum (map size (rev ps)) = list_sum (map size ps)).
          { rewrite map_rev. generalize (map size ps). intros l. induction l as [|a l IHl]; simpl; auto.
            rewrite list_sum_app. simpl. lia. }
          lia. }
    intros msg fuel L P. apply G; auto. simpl. lia.
  Qed.
End Prepare.

(** A queue of numbers, [pack] as a list with a header of 2: 3 messages into 2 batches. *)
Example ex_C33 :
  split_messages_on_batches (list nat) (list nat) (fun l => match l with [m] => m | _ => 0 :: 0 :: concat l end)
    (@length nat) (fun n => n <=? 6) [[1; 1; 1]; [2]; [3; 3; 3; 3; 3; 3]; [4]]
  = Ok (Some [([0; 0; 1; 1; 1; 2], 2); ([3; 3; 3; 3; 3; 3], 1); ([4], 1)]).
Proof. reflexivity. Qed.

(** A splitter halving a list: pieces of at most 3. *)
Example ex_C33_prepare :
  prepare_for_sending (list nat) (list nat) (fun l => l) (@length nat) 3
    (Some (fun l => if length l <? 2 then None
                    else Some [firstn (length l / 2) l; skipn (length l / 2) l])) 20 [1; 2; 3; 4; 5; 6; 7]
  = Ok (Some [[6; 7]; [4; 5]; [1; 2; 3]]).
Proof. reflexivity. Qed.

(** Wire messages that meet the hypotheses of C33_flush. *)
Inductive wire := W (size : nat) | WBatch (ms : list wire).
Fixpoint wlen (w : wire) : nat :=
  match w with W n => n | WBatch ms => 2 + list_sum (map wlen ms) end.
Definition wunpack (w : wire) := match w with W _ => None | WBatch ms => Some ms end.
Example ex_C33_flush :
  (forall l, wunpack (WBatch l) = Some l) /\
  (forall m, In m [W 3; W 1; W 6; W 4] -> wunpack m = None /\ wlen m <= 6) /\
  flush wire WBatch wlen 6 true [W 3; W 1; W 6; W 4]
    = Ok [mkSent _ (WBatch [W 3; W 1]) true; mkSent _ (W 6) true; mkSent _ (W 4) true].
Proof.
  split; [reflexivity|]. split; [|reflexivity].
  intros m H. simpl in H. intuition (subst; simpl; auto; lia).
Qed.

Print Assumptions C33_split.
Print Assumptions C33_split_too_long.
Print Assumptions C33_flush.
Print Assumptions C33_flush_drops_all.
Print Assumptions C33_prepare.
Print Assumptions C33_prepare_terminates.
