(** C39: when a node decides how far to catch up, or that it need not. *)
From Coq Require Import List Arith NArith Bool Lia.
From Verif Require Import Base Dict Quorum_Model Bits_Model Merkle_Spec Merkle_Model Merkle_Props Ledger_Model CatchupReq_Model Catchup_Model Catchup_Spec
  Ledger_Spec Ledger_Props Catchup_Props Seeder_Model Seeder_Props ConsProof_Model ConsProof_Spec ConsProof_Proofs.
Import ListNotations.

Section Props.
  Variable lid : nat.
  Notation last_word := (last_word lid).
  Notation confirmed := (confirmed lid).
  Notation last_key := (last_key lid).
  Notation step := (step lid).
  Notation run := (run lid).
  Notation news := (news lid).
  Notation backed := (backed lid).

  (** ** Lemmas *)
  Lemma q_f_of n h s : k_n s = pool n h -> q s = Quorums (pool n h).
  Proof. unfold q. congruence. Qed.
  Lemma votes_backed h s c k : Votes lid h s -> k <= occ c (somes (k_proofs s)) <-> backed k c h.
  Proof.
    intros (A1 & A2 & A3 & A4 & A5 & A6). rewrite occ_at_least by exact A2. apply at_least_iff. intros m. rewrite A4. reflexivity.
  Qed.
  Lemma backed_in h s c k : Votes lid h s -> 0 < k -> backed k c h -> In c (somes (k_proofs s)).
  Proof.
    intros V P Bk. apply (votes_backed h s c k V) in Bk. apply (count_occ_In cp_eq_dec). unfold occ in Bk. lia.
  Qed.
  Definition sizes_sent (s : st) : dict nat := flat_map (fun '(n, p) => match p with Some c => [(n, c_end c)] | None => [] end) (k_proofs s).
  Lemma sizes_get h s m k : Votes lid h s ->
    get m (sizes_sent s) = Some k <-> exists c, last_word m h = Some (Some c) /\ c_end c = k.
  Proof.
    intros (A1 & A2 & A3 & A4 & A5 & A6). rewrite <- A4. unfold sizes_sent. revert A2. generalize (k_proofs s). intros d. induction d as [|(m', p) d IH]; cbn [flat_map get]; intros N.
    - split; [discriminate|]. intros (c & E & _). discriminate.
    - cbn in N. inversion N as [|? ? N1 N2]; subst. destruct p as [c|]; cbn [app get].
      + destruct (Nat.eqb_spec m m') as [->|Ne]; [|apply IH; exact N2]. split.
        * intros E. injection E as <-. exists c. auto.
        * intros (c' & E & <-). congruence.
      + destruct (Nat.eqb_spec m m') as [->|Ne]; [|apply IH; exact N2]. split; [|intros (c & E & _); congruence].
        intros E. exfalso. apply (IH N2) in E as (c & E & _). apply N1. apply get_in in E. apply (in_map fst) in E. exact E.
  Qed.
  Lemma finish_log c s : k_log (finish c s) = k_log s ++
    [LStart (match c with Some c => Some (mkTill (c_start c) (c_end c) (Some (c_new c))) | None => None end) (sizes_sent s)].
  Proof. reflexivity. Qed.
  Lemma finish_none_log e s : k_log (finish_no_catchup lid e s) = k_log s ++
    [LStart (match get_last_txn_3PC_key s with Some _ => Some (mkTill (e_size e) (e_size e) (Some (e_root e))) | None => None end) (sizes_sent s)].
  Proof. unfold finish_no_catchup. destruct (get_last_txn_3PC_key s) as [(v, p)|]; reflexivity. Qed.
  Lemma asked_log e s : 0 < length (k_proofs s) -> exists l, k_log (s_asked e s) = k_log s ++ l /\ Forall no_start l.
  Proof.
    intros P. unfold s_asked. destruct (try_asking_cases e s P) as [(-> & _)|(_ & _ & b & _ & _ & _ & ->)]; cbn.
    - exists []. rewrite app_nil_r. auto.
    - eexists. split; [reflexivity|]. repeat constructor.
  Qed.
  Lemma proof_nonempty c frm s : 0 < length (k_proofs (s_proof c frm s)).
  Proof. cbn. destruct (k_proofs s) as [|(m, v) d]; cbn; [lia|]. destruct (frm =? m); cbn; lia. Qed.

  Lemma in_news_last s x l y : k_log (step s x) = k_log s ++ l ++ [y] -> In y (news s x).
  Proof. intros E. rewrite (news_app lid s x _ E). apply in_app_iff. right. left. reflexivity. Qed.
  (** Everything a step can start. *)
  Lemma start_news n h x t sizes : let s := run h (init n) in let h' := h ++ [x] in
    In (LStart t sizes) (news s x) ->
    k_working s = true /\ counted lid s x = true /\ k_working (step s x) = false /\
    (forall m k, get m sizes = Some k <-> exists c, last_word m h' = Some (Some c) /\ c_end c = k) /\
    starts (news s x) = 1 /\
    let e := fst x in let f := max_faulty n h' in
    ((at_least (pool n h' - f - 1) (fun m => confirmed m h' = true) /\
      match t with
      | None => forall v p, ~ at_least (f + 1) (fun m => last_key m h' = Some (Some v, Some p))
      | Some t => t = mkTill (e_size e) (e_size e) (Some (e_root e)) /\
                  exists v p, at_least (f + 1) (fun m => last_key m h' = Some (Some v, Some p))
      end) \/
     (~ at_least (pool n h' - f - 1) (fun m => confirmed m h' = true) /\
      exists c, t = Some (mkTill (c_start c) (c_end c) (Some (c_new c))) /\ c_start c = e_size e /\ backed (f + 1) c h' /\
        (forall c', c_start c' = e_size e -> backed (f + 1) c' h' -> c_end c' <= c_end c) /\
        (exists c0 frm, snd x = OProof c0 frm))).
  Proof.
    intros s h' J. pose proof (inv_run lid n h) as (IN & IV). fold s in IN, IV.
    destruct (match snd x with OStart _ => true | _ => false end) eqn:IS.
    { destruct x as (e, [r| | | | |]); try discriminate. exfalso. unfold ConsProof_Spec.news in J. cbn [ConsProof_Model.step] in J.
      destruct (start_fields e r s) as (_ & _ & _ & _ & _ & _ & _ & E). rewrite E, skipn_app, skipn_all, Nat.sub_diag in J. cbn in J.
      destruct r; [destruct J as [J|[]]; discriminate|destruct J]. }
    assert (NS : match snd x with OStart _ => False | _ => True end) by (destruct x as (e, []); cbn in *; congruence || exact I).
    destruct (counted lid s x) eqn:C.
    2: { exfalso. destruct (other_step lid s x C NS) as (_ & _ & _ & _ & _ & _ & _ & l & E & F).
         rewrite (news_app lid s x l E) in J. rewrite Forall_forall in F. exact (F _ J). }
    assert (PN : pool n h' = pool n h) by (unfold h'; rewrite pool_snoc; destruct x as (e, []); cbn in *; congruence || reflexivity).
    unfold max_faulty. rewrite PN. destruct (counted_inv lid s x C) as (W & K). split; [exact W|]. split; [reflexivity|].
    assert (Q : q s = Quorums (pool n h)) by (unfold q; congruence).
    destruct K as [(e & ss & frm & -> & E)|(e & c & frm & -> & E)]; cbn [fst snd] in *.
    - destruct (status_step lid h e ss frm s W (IV W) E) as (V1 & [(AL & EQ)|(_ & EQ)]); fold h' in V1.
      2: { exfalso. assert (L : k_log (step s (e, OStatus ss frm)) = k_log s ++ []).
           { rewrite EQ. destruct (s_status_fields e ss frm s) as (_ & _ & _ & _ & _ & _ & ->). rewrite app_nil_r. reflexivity. }
           rewrite (news_app lid s _ _ L) in J. destruct J. }
      set (s1 := s_status e ss frm s) in *.
      assert (L : k_log (step s (e, OStatus ss frm)) = k_log s ++ skipn 0 [LStart (match get_last_txn_3PC_key s1 with
         Some _ => Some (mkTill (e_size e) (e_size e) (Some (e_root e))) | None => None end) (sizes_sent s1)]).
      { rewrite EQ, finish_none_log. destruct (s_status_fields e ss frm s) as (_ & _ & _ & _ & _ & _ & X). unfold s1 at 1. rewrite X. reflexivity. }
      pose proof (news_app lid s _ _ L) as NW. cbn [skipn] in NW. rewrite NW in J. destruct J as [J|[]]. injection J as Jt Js.
      split; [rewrite EQ; apply finish_none_fields|]. split; [intros m k; rewrite <- Js; apply sizes_get; exact V1|].
      split; [rewrite NW; reflexivity|]. left.
      assert (Q1 : q s1 = Quorums (pool n h)).
      { unfold q, s1. rewrite (proj1 (s_status_fields e ss frm s)). exact Q. }
      split; [rewrite Q in AL; exact AL|]. destruct V1 as (B1 & B2 & B3 & B4 & B5 & B6).
      destruct (get_last_txn_3PC_key s1) as [(v, p)|] eqn:LK; subst t.
      + split; [reflexivity|]. exists v, p. destruct (last_3PC_some s1 v p B3 LK) as (X & _). rewrite Q1 in X.
        apply (at_least_weaken _ _ _ (fun m Y => eq_trans (eq_sym (B6 m)) Y) X).
      + intros v p X. apply (last_3PC_none s1 B3 LK v p). rewrite Q1. apply (at_least_weaken _ _ _ (fun m Y => eq_trans (B6 m) Y) X).
    - destruct (proof_step lid h e c frm s W (IV W) E) as (V1 & V3 & [(AL & EQ)|(NAL & EQ)]); fold h' in V1, V3.
      + set (s1 := s_proof c frm s) in *.
        assert (L : k_log (step s (e, OProof c frm)) = k_log s ++ skipn 0 [LStart (match get_last_txn_3PC_key s1 with
          Some _ => Some (mkTill (e_size e) (e_size e) (Some (e_root e))) | None => None end) (sizes_sent s1)]).
        { rewrite EQ, finish_none_log. reflexivity. }
        pose proof (news_app lid s _ _ L) as NW. cbn [skipn] in NW. rewrite NW in J. destruct J as [J|[]]. injection J as Jt Js.
        split; [rewrite EQ; apply finish_none_fields|]. split; [intros m k; rewrite <- Js; apply sizes_get; exact V1|].
        split; [rewrite NW; reflexivity|]. left.
        assert (Q1 : q s1 = Quorums (pool n h)) by exact Q.
        split; [rewrite Q in AL; exact AL|]. destruct V1 as (B1 & B2 & B3 & B4 & B5 & B6).
        destruct (get_last_txn_3PC_key s1) as [(v, p)|] eqn:LK; subst t.
        * split; [reflexivity|]. exists v, p. destruct (last_3PC_some s1 v p B3 LK) as (X & _). rewrite Q1 in X.
          apply (at_least_weaken _ _ _ (fun m Y => eq_trans (eq_sym (B6 m)) Y) X).
        * intros v p X. apply (last_3PC_none s1 B3 LK v p). rewrite Q1. apply (at_least_weaken _ _ _ (fun m Y => eq_trans (B6 m) Y) X).
      + set (s1 := s_proof c frm s) in *. destruct (asked_log e s1 (proof_nonempty c frm s)) as (la & LA & FA).
        assert (L3 : k_log (s_sched (s_asked e s1)) = k_log s ++ la).
        { destruct (s_sched_fields (s_asked e s1)) as (_ & _ & _ & _ & _ & _ & ->). rewrite LA. reflexivity. }
        assert (N3 : q (s_sched (s_asked e s1)) = Quorums (pool n h)).
        { unfold q. rewrite (proj1 (s_sched_fields _)), (proj1 (s_asked_fields _ _)). exact Q. }
        destruct (latest_reliable e (s_sched (s_asked e s1)) (fst (group (k_proofs (s_sched (s_asked e s1)))))) as [cp|] eqn:LR.
        2: { exfalso. assert (L : k_log (step s (e, OProof c frm)) = k_log s ++ la) by (rewrite EQ; exact L3).
             rewrite (news_app lid s _ _ L) in J. rewrite Forall_forall in FA. exact (FA _ J). }
        set (s3 := s_sched (s_asked e s1)) in *.
        assert (L : k_log (step s (e, OProof c frm)) = k_log s ++ la ++ [LStart (Some (mkTill (c_start cp) (c_end cp) (Some (c_new cp)))) (sizes_sent s3)]).
        { rewrite EQ, finish_log, L3, app_assoc. reflexivity. }
        pose proof (news_app lid s _ _ L) as NW. rewrite NW in J. apply in_app_iff in J as [J|[J|[]]]; [rewrite Forall_forall in FA; destruct (FA _ J)|].
        injection J as Jt Js. subst t.
        split; [rewrite EQ; apply finish_fields|]. split; [intros m k; rewrite <- Js; apply sizes_get; exact V3|].
        split.
        { rewrite NW. unfold starts. rewrite filter_app, app_length. cbn.
          assert (Z : forall l, Forall no_start l -> length (filter (fun y => match y with LStart _ _ => true | _ => false end) l) = 0).
          { induction 1 as [|y l Ny Fl IH]; cbn; [reflexivity|]. destruct y; cbn in *; auto. destruct Ny. }
          rewrite (Z la FA). reflexivity. }
        right. split; [rewrite Q in NAL; exact NAL|].
        destruct (latest_some e s3 _ (somes (k_proofs s3)) cp (proj1 (group_ok _)) LR) as (X1 & X2 & X3 & X4).
        rewrite N3 in X2, X4. exists cp. split; [reflexivity|]. split; [exact X3|].
        split; [apply (votes_backed h' s3 cp _ V3); exact X2|]. split; [|eauto].
        intros c' E' Bk. apply X4; [apply (backed_in h' s3 c' (getMaxFailures (pool n h) + 1) V3); [lia|exact Bk]|apply (votes_backed h' s3 c' _ V3); exact Bk|exact E'].
  Qed.

  (** ** C39 *)

  (** A target to catch up to is the end of a consistency proof which f+1 different nodes
      sent as their last word since this search began, the furthest such; it starts from
      what this node has, and n-f-1 nodes have not said that this node is not behind. The
      sizes handed on are those of the nodes' last proofs. *)
  Theorem C39_target : forall n h e o t sizes,
    let s := run h (init n) in let h' := h ++ [(e, o)] in let f := max_faulty n h' in
    In (LStart (Some t) sizes) (news s (e, o)) -> t_start t <> t_final t ->
    exists c, t = mkTill (e_size e) (c_end c) (Some (c_new c)) /\ c_ledger c = lid /\ c_start c = e_size e /\ e_size e < c_end c /\
      backed (f + 1) c h' /\
      (forall c', c_start c' = e_size e -> backed (f + 1) c' h' -> c_end c' <= c_end c) /\
      ~ at_least (pool n h' - f - 1) (fun m => confirmed m h' = true) /\
      (forall m k, get m sizes = Some k <-> exists c, last_word m h' = Some (Some c) /\ c_end c = k).
  Proof.
    intros n h e o t sizes s h' f J NE. destruct (start_news n h (e, o) (Some t) sizes J) as (_ & _ & _ & SZ & _ & [(AL & X & _)|(NAL & c & Et & Es & Bk & Mx & _)]).
    - subst t. exfalso. apply NE. reflexivity.
    - injection Et as ->. cbn [fst] in *. exists c.
      assert (Wd : c_ledger c = lid /\ c_start c < c_end c).
      { destruct Bk as (l & N & L & A). destruct l as [|m l]; [cbn in L; lia|]. apply (word_proof lid m c h'). apply A. left. reflexivity. }
      destruct Wd as (W1 & W2). split; [rewrite Es; reflexivity|]. split; [exact W1|]. split; [exact Es|]. split; [lia|].
      split; [exact Bk|]. split; [exact Mx|]. split; [exact NAL|exact SZ].
  Qed.

  (** The ledger is declared up to date only when n-f-1 different nodes have said, since the
      search began, that theirs is not longer; a target that is the ledger itself is given
      if f+1 of the nodes with a ledger of this size last sent the same 3PC key. *)
  Theorem C39_uptodate_partial : forall n h e o t sizes,
    let s := run h (init n) in let h' := h ++ [(e, o)] in let f := max_faulty n h' in
    In (LStart t sizes) (news s (e, o)) -> (forall t', t = Some t' -> t_start t' = t_final t') ->
    at_least (pool n h' - f - 1) (fun m => confirmed m h' = true) /\
    match t with
    | None => forall v p, ~ at_least (f + 1) (fun m => last_key m h' = Some (Some v, Some p))
    | Some t => t = mkTill (e_size e) (e_size e) (Some (e_root e)) /\
                exists v p, at_least (f + 1) (fun m => last_key m h' = Some (Some v, Some p))
    end.
  Proof.
    intros n h e o t sizes s h' f J EQ. destruct (start_news n h (e, o) t sizes J) as (_ & _ & _ & _ & _ & [X|(NAL & c & Et & Es & Bk & _)]).
    - exact X.
    - exfalso. specialize (EQ _ Et). cbn in EQ.
      destruct Bk as (l & N & L & A). destruct l as [|m l]; [cbn in L; lia|].
      pose proof (proj2 (word_proof lid m c h' (A m (or_introl eq_refl)))). lia.
  Qed.

  (** While it searches, the node decides as soon as a message makes it possible: when
      n-f-1 nodes have said that they are not longer, or, on a proof, when f+1 nodes' last
      words are one proof from the ledger's size; and not before. *)
  Theorem C39_decides : forall n h e o, let s := run h (init n) in let h' := h ++ [(e, o)] in let f := max_faulty n h' in
    k_working s = true ->
    (exists t sizes, In (LStart t sizes) (news s (e, o))) <->
    (match o with OStatus st _ => not_newer lid e st = true | OProof c _ => usable lid e c = true | _ => False end /\
     (at_least (pool n h' - f - 1) (fun m => confirmed m h' = true) \/
      match o with OProof _ _ => exists c, c_start c = e_size e /\ backed (f + 1) c h' | _ => False end)).
  Proof.
    intros n h e o s h' f W. split.
    - intros (t & sizes & J). destruct (start_news n h (e, o) t sizes J) as (_ & C & _ & _ & _ & X). fold s in C. cbn [counted] in C.
      split.
      + destruct o; cbn [counted] in C; rewrite ?W in C; cbn [andb] in C; try discriminate; exact C.
      + destruct X as [(AL & _)|(_ & c & _ & Es & Bk & _ & c0 & frm & Eo)]; [left; exact AL|]. right. cbn [snd] in Eo. subst o. exists c. auto.
    - intros (C & D). pose proof (inv_run lid n h) as (IN & IV). fold s in IN, IV. specialize (IV W).
      assert (PN : pool n h' = pool n h) by (unfold h'; rewrite pool_snoc; destruct o; try contradiction; reflexivity).
      unfold f, max_faulty in D. rewrite PN in D.
      assert (Q : q s = Quorums (pool n h)) by (unfold q; congruence).
      destruct o as [r|ss frm|c frm| | |]; try contradiction.
      + destruct (status_step lid h e ss frm s W IV C) as (V1 & [(AL & EQ)|(NAL & EQ)]).
        * do 2 eexists. apply (in_news_last s (e, OStatus ss frm) []).
          rewrite EQ, finish_none_log. destruct (s_status_fields e ss frm s) as (_ & _ & _ & _ & _ & _ & ->). reflexivity.
        * exfalso. apply NAL. rewrite Q. destruct D as [D|[]]. exact D.
      + destruct (proof_step lid h e c frm s W IV C) as (V1 & V3 & [(AL & EQ)|(NAL & EQ)]); fold h' in V1, V3.
        * do 2 eexists. apply (in_news_last s (e, OProof c frm) []).
          rewrite EQ, finish_none_log. reflexivity.
        * destruct D as [D|(cp & Ecp & Bk)]; [exfalso; apply NAL; rewrite Q; exact D|].
          set (s3 := s_sched (s_asked e (s_proof c frm s))) in *.
          assert (N3 : q s3 = Quorums (pool n h)).
          { unfold q, s3. rewrite (proj1 (s_sched_fields _)), (proj1 (s_asked_fields _ _)). exact Q. }
          destruct (latest_reliable e s3 (fst (group (k_proofs s3)))) as [c2|] eqn:LR.
          -- destruct (asked_log e (s_proof c frm s) (proof_nonempty c frm s)) as (la & LA & FA).
             do 2 eexists. apply (in_news_last s (e, OProof c frm) la).
             rewrite EQ, finish_log, app_assoc. f_equal. unfold s3. destruct (s_sched_fields (s_asked e (s_proof c frm s))) as (_ & _ & _ & _ & _ & _ & ->).
             rewrite LA. reflexivity.
          -- exfalso. apply (latest_none e s3 _ (somes (k_proofs s3)) (proj1 (group_ok _)) LR cp); [|rewrite N3|exact Ecp].
             ++ apply (backed_in h' s3 cp (getMaxFailures (pool n h) + 1) V3); [lia|exact Bk].
             ++ apply (votes_backed h' s3 cp _ V3). exact Bk.
  Qed.

  (** After a start the search runs until it has come to a decision, once. *)
  Theorem C39_once : forall n h, let s := run h (init n) in
    starts (k_log s) + (if k_working s then 1 else 0) <= asked_to_start h /\
    forall x, k_working (step s x) =
      match snd x with OStart _ => true | _ => k_working s && negb (0 <? starts (news s x)) end.
  Proof.
    intros n h s. pose (g := fun y : entry => match y with LStart _ _ => true | _ => false end).
    assert (NZ : forall l, (forall t sizes, ~ In (LStart t sizes) l) -> starts l = 0).
    { intros l A. unfold starts. destruct (filter _ l) as [|y r] eqn:F; [reflexivity|]. exfalso.
      assert (J : In y (filter g l)) by (unfold g; rewrite F; left; reflexivity). apply filter_In in J as (J & E).
      destruct y; try discriminate. exact (A _ _ J). }
    assert (PZ : forall l, starts l = 0 \/ exists t sizes, In (LStart t sizes) l).
    { intros l. unfold starts. destruct (filter _ l) as [|y r] eqn:F; [left; reflexivity|]. right.
      assert (J : In y (filter g l)) by (unfold g; rewrite F; left; reflexivity). apply filter_In in J as (J & E).
      destruct y; try discriminate. eauto. }
    assert (ST : forall h x, let s := run h (init n) in k_working (step s x) =
      match snd x with OStart _ => true | _ => k_working s && negb (0 <? starts (news s x)) end).
    { clear s h. intros h x s. destruct (PZ (news s x)) as [Z|(t & sizes & J)].
      - rewrite Z. cbn [Nat.ltb Nat.leb negb]. rewrite andb_true_r.
        destruct (match snd x with OStart _ => true | _ => false end) eqn:IS.
        { destruct x as (e, [r| | | | |]); try discriminate. apply (start_fields e r s). }
        assert (NS : match snd x with OStart _ => False | _ => True end) by (destruct x as (e, []); cbn in *; congruence || exact I).
        transitivity (k_working s); [|destruct x as (e, []); cbn in *; congruence || reflexivity].
        destruct (counted lid s x) eqn:C; [|apply (other_step lid s x C NS)].
        destruct (counted_inv lid s x C) as (W & K). pose proof (inv_run lid n h) as (_ & IV). fold s in IV. specialize (IV W).
        destruct K as [(e & ss & frm & -> & E)|(e & c & frm & -> & E)].
        + destruct (status_step lid h e ss frm s W IV E) as (V1 & [(AL & EQ)|(NAL & EQ)]).
          * exfalso. rewrite (news_app lid s _ [LStart (match get_last_txn_3PC_key (s_status e ss frm s) with
              Some _ => Some (mkTill (e_size e) (e_size e) (Some (e_root e))) | None => None end) (sizes_sent (s_status e ss frm s))]) in Z; [discriminate|].
            rewrite EQ, finish_none_log. destruct (s_status_fields e ss frm s) as (_ & _ & _ & _ & _ & _ & ->). reflexivity.
          * rewrite EQ. destruct (s_status_fields e ss frm s) as (_ & X & _). exact X.
        + destruct (proof_step lid h e c frm s W IV E) as (V1 & V3 & [(AL & EQ)|(NAL & EQ)]).
          * exfalso. rewrite (news_app lid s _ [LStart (match get_last_txn_3PC_key (s_proof c frm s) with
              Some _ => Some (mkTill (e_size e) (e_size e) (Some (e_root e))) | None => None end) (sizes_sent (s_proof c frm s))]) in Z; [discriminate|].
            rewrite EQ, finish_none_log. reflexivity.
          * set (s3 := s_sched (s_asked e (s_proof c frm s))) in *.
            destruct (asked_log e (s_proof c frm s) (proof_nonempty c frm s)) as (la & LA & FA).
            destruct (latest_reliable e s3 (fst (group (k_proofs s3)))) as [c2|] eqn:LR.
            -- exfalso. rewrite (news_app lid s _ (la ++ [LStart (Some (mkTill (c_start c2) (c_end c2) (Some (c_new c2)))) (sizes_sent s3)])) in Z.
               { unfold starts in Z. rewrite filter_app, app_length in Z. cbn in Z. lia. }
               rewrite EQ, finish_log, app_assoc. f_equal. unfold s3. destruct (s_sched_fields (s_asked e (s_proof c frm s))) as (_ & _ & _ & _ & _ & _ & ->).
               rewrite LA. reflexivity.
            -- rewrite EQ. unfold s3. destruct (s_sched_fields (s_asked e (s_proof c frm s))) as (_ & -> & _).
               destruct (s_asked_fields e (s_proof c frm s)) as (_ & -> & _). reflexivity.
      - destruct (start_news n h x t sizes J) as (W & C & F & _ & S1 & _). fold s in W, C, F, S1. rewrite F, S1. cbn. rewrite andb_false_r.
        destruct x as (e, []); cbn in *; congruence || reflexivity. }
    split; [|intros x; apply ST].
    subst s. induction h as [|x h IH] using rev_ind; [cbn; lia|]. rewrite run_snoc. specialize (ST h x). cbn zeta in ST.
    set (s := run h (init n)) in *.
    assert (SP : starts (k_log (step s x)) = starts (k_log s) + starts (news s x)).
    { assert (G : exists l, k_log (step s x) = k_log s ++ l).
      { destruct (match snd x with OStart _ => true | _ => false end) eqn:IS.
        { destruct x as (e, [r| | | | |]); try discriminate. destruct (start_fields e r s) as (_ & _ & _ & _ & _ & _ & _ & E). eexists. exact E. }
        assert (NS : match snd x with OStart _ => False | _ => True end) by (destruct x as (e, []); cbn in *; congruence || exact I).
        destruct (counted lid s x) eqn:C; [|destruct (other_step lid s x C NS) as (_ & _ & _ & _ & _ & _ & _ & l & E & _); exists l; exact E].
        destruct (counted_inv lid s x C) as (W & K). pose proof (inv_run lid n h) as (_ & IV). fold s in IV. specialize (IV W).
        destruct K as [(e & ss & frm & -> & E)|(e & c & frm & -> & E)].
        - destruct (status_step lid h e ss frm s W IV E) as (V1 & [(AL & EQ)|(NAL & EQ)]); rewrite EQ.
          + rewrite finish_none_log. destruct (s_status_fields e ss frm s) as (_ & _ & _ & _ & _ & _ & ->). eexists. reflexivity.
          + destruct (s_status_fields e ss frm s) as (_ & _ & _ & _ & _ & _ & ->). exists []. rewrite app_nil_r. reflexivity.
        - destruct (proof_step lid h e c frm s W IV E) as (V1 & V3 & [(AL & EQ)|(NAL & EQ)]).
          + rewrite EQ, finish_none_log. eexists. reflexivity.
          + destruct (asked_log e (s_proof c frm s) (proof_nonempty c frm s)) as (la & LA & FA).
            destruct (latest_reliable _ _ _) in EQ; rewrite EQ; rewrite ?finish_log;
              destruct (s_sched_fields (s_asked e (s_proof c frm s))) as (_ & _ & _ & _ & _ & _ & ->); rewrite LA.
            * rewrite <- app_assoc. eexists. reflexivity.
            * eexists. reflexivity. }
      destruct G as (l & G). rewrite (news_app lid s x l G), G. unfold starts. rewrite filter_app, app_length. reflexivity. }
    rewrite SP, ST. assert (AS : asked_to_start (h ++ [x]) = asked_to_start h + match snd x with OStart _ => 1 | _ => 0 end).
    { unfold asked_to_start. rewrite filter_app, app_length. destruct x as (e, []); reflexivity. }
    rewrite AS.
    assert (L1 : starts (news s x) <= (if k_working s then 1 else 0) /\ (match snd x with OStart _ => starts (news s x) = 0 | _ => True end)).
    { destruct (PZ (news s x)) as [Z|(t & sizes & J)]; [rewrite Z; split; [destruct (k_working s); lia|destruct (snd x); auto]|].
      destruct (start_news n h x t sizes J) as (W & C & _ & _ & S1 & _). fold s in W, C, S1. rewrite W, S1. split; [lia|].
      destruct x as (e, []); cbn in *; congruence || exact I. }
    destruct L1 as (L1 & L2). destruct (snd x); try (destruct (k_working s), (starts (news s x)) as [|[|?]]; cbn in *; lia).
  Qed.

  (** With at most f faulty nodes, every target is true if the correct nodes' proofs are. *)
  Theorem C39_genuine : forall (T : cproof -> Prop) (faulty : list nat) n h e o t sizes,
    let s := run h (init n) in let h' := h ++ [(e, o)] in
    (forall e' c m, In (e', OProof c m) h' -> ~ In m faulty -> T c) -> length faulty <= max_faulty n h' ->
    In (LStart (Some t) sizes) (news s (e, o)) -> t_start t <> t_final t ->
    exists c, t = mkTill (e_size e) (c_end c) (Some (c_new c)) /\ c_start c = e_size e /\ e_size e < c_end c /\ T c.
  Proof.
    intros T faulty n h e o t sizes s h' HT LF J NE.
    destruct (C39_target n h e o t sizes J NE) as (c & Et & _ & Es & Lt & (l & N & L & A) & _). exists c. split; [exact Et|].
    split; [exact Es|]. split; [exact Lt|].
    assert (X : exists m, In m l /\ ~ In m faulty).
    { destruct (existsb (fun m => negb (existsb (Nat.eqb m) faulty)) l) eqn:Ex.
      - apply existsb_exists in Ex as (m & J1 & J2). exists m. split; [exact J1|]. intros K. apply mem_in in K. rewrite K in J2. discriminate.
      - exfalso. assert (Incl : incl l faulty).
        { intros m J1. apply mem_in. destruct (existsb (Nat.eqb m) faulty) eqn:F; [reflexivity|]. exfalso.
          assert (Y : existsb (fun m => negb (existsb (Nat.eqb m) faulty)) l = true) by (apply existsb_exists; exists m; rewrite F; auto). congruence. }
        pose proof (NoDup_incl_length N Incl). fold h' in L. lia. }
    destruct X as (m & J1 & J2).
    assert (Y : forall k, last_word m k = Some (Some c) -> exists e', In (e', OProof c m) k).
    { intros k. induction k as [|x k IH] using rev_ind; [discriminate|]. rewrite last_word_snoc.
      assert (R : last_word m k = Some (Some c) -> exists e', In (e', OProof c m) (k ++ [x])).
      { intros F. destruct (IH F) as (e' & K). exists e'. apply in_app_iff. auto. }
      destruct x as (e0, [r|ss frm|c0 frm| | |]); cbn [word]; auto; try discriminate.
      - destruct ((frm =? m) && not_newer lid e0 ss); [discriminate|auto].
      - destruct ((frm =? m) && usable lid e0 c0) eqn:E; [|auto]. intros F. injection F as ->. apply andb_true_iff in E as (E & _).
        apply Nat.eqb_eq in E. subst frm. exists e0. apply in_app_iff. right. left. reflexivity. }
    destruct (Y h' (A m J1)) as (e' & K). exact (HT e' c m K J2).
  Qed.

  (** *** Asking *)

  (** On a proof, once per search: when n-f-1 nodes have been heard and the last proofs of
      more than f of them go beyond the ledger, equal proofs are asked for, up to the
      furthest size which f+1 of them claim to have; from every eligible node. *)
  Theorem C39_asks : forall n h e c frm, let s := run h (init n) in let h' := h ++ [(e, OProof c frm)] in let f := max_faulty n h' in
    k_working s = true -> usable lid e c = true -> ~ at_least (pool n h' - f - 1) (fun m => confirmed m h' = true) ->
    (forall a b nodes, In (LAskProof a b nodes) (news s (e, OProof c frm)) ->
       k_asked s = false /\ k_asked (step s (e, OProof c frm)) = true /\ a = e_size e /\ a < b /\ nodes = e_eligible e /\
       at_least (f + 1) (fun m => exists c, last_word m h' = Some (Some c) /\ b <= c_end c) /\
       ~ at_least (f + 1) (fun m => exists c, last_word m h' = Some (Some c) /\ b < c_end c)) /\
    (k_asked s = false -> at_least (pool n h' - f - 1) (fun m => last_word m h' <> None) ->
     at_least (f + 1) (fun m => exists c, last_word m h' = Some (Some c) /\ e_size e < c_end c) ->
     exists b, In (LAskProof (e_size e) b (e_eligible e)) (news s (e, OProof c frm))).
  Proof.
    intros n h e c frm s h' f W U NAL. pose proof (inv_run lid n h) as (IN & IV). fold s in IN, IV. specialize (IV W).
    assert (PN : pool n h' = pool n h) by (unfold h'; rewrite pool_snoc; reflexivity).
    assert (Q : q s = Quorums (pool n h)) by (unfold q; congruence).
    unfold f, max_faulty in *. rewrite PN in *. clear f.
    destruct (proof_step lid h e c frm s W IV U) as (V1 & V3 & [(AL & _)|(_ & EQ)]); fold h' in V1, V3.
    { exfalso. apply NAL. rewrite Q in AL. exact AL. }
    set (s1 := s_proof c frm s) in *. set (s3 := s_sched (s_asked e s1)) in *.
    assert (P : 0 < length (k_proofs s1)) by apply proof_nonempty.
    assert (Q1 : q s1 = Quorums (pool n h)) by exact Q.
    assert (N1 : k_n s1 = pool n h) by (change (k_n s1) with (k_n s); exact IN).
    destruct V1 as (B1 & B2 & B3 & B4 & B5 & B6).
    assert (SZ : forall (p : nat -> bool) k, p (e_size e) = false -> k <= length (filter p (sizes_of e s1)) <->
      at_least k (fun m => exists c, last_word m h' = Some (Some c) /\ p (c_end c) = true)).
    { intros p k Pz. unfold sizes_of.
      assert (X : length (filter p (map (fun x => claims (e_size e) (snd x)) (k_proofs s1))) = length (holding (fun v => p (claims (e_size e) v)) (k_proofs s1))).
      { unfold holding. generalize (k_proofs s1). intros d. induction d as [|x d IH]; cbn [map filter]; [reflexivity|]. destruct (p (claims (e_size e) (snd x))); cbn [length]; rewrite IH; reflexivity. }
      rewrite X, holding_at_least by exact B2. apply at_least_iff. intros m. rewrite B4. split.
      - intros ([c0|] & G & E); cbn [claims] in E; [exists c0; auto|congruence].
      - intros (c0 & G & E). exists (Some c0). auto. }
    assert (LG : forall l, k_log (s_asked e s1) = k_log s1 ++ l ->
      (forall a b nodes, In (LAskProof a b nodes) (news s (e, OProof c frm)) <-> In (LAskProof a b nodes) l) /\
      k_asked (step s (e, OProof c frm)) = k_asked (s_asked e s1)).
    { intros l L. assert (L3 : k_log s3 = k_log s ++ l).
      { unfold s3. destruct (s_sched_fields (s_asked e s1)) as (_ & _ & _ & _ & _ & _ & ->). exact L. }
      assert (A3 : k_asked s3 = k_asked (s_asked e s1)) by (unfold s3; destruct (s_sched_fields (s_asked e s1)) as (_ & _ & _ & _ & _ & -> & _); reflexivity).
      destruct (latest_reliable e s3 _) as [cp|] in EQ.
      - split; [|rewrite EQ; exact A3]. intros a b nodes.
        rewrite (news_app lid s _ (l ++ [LStart (Some (mkTill (c_start cp) (c_end cp) (Some (c_new cp)))) (sizes_sent s3)])).
        + rewrite in_app_iff. split; [intros [X|[X|[]]]; [exact X|discriminate]|auto].
        + rewrite EQ, finish_log, L3, app_assoc. reflexivity.
      - split; [|rewrite EQ; exact A3]. intros a b nodes. rewrite (news_app lid s _ l); [reflexivity|]. rewrite EQ. exact L3. }
    destruct (try_asking_cases e s1 P) as [(T & WHY)|(NA & HN & b & Lb & C1 & C2 & T)].
    - destruct (LG []) as (LG1 & _). { unfold s_asked. rewrite T, app_nil_r. reflexivity. }
      split; [intros a b nodes J; apply LG1 in J; destruct J|]. intros NA AN AE. exfalso. destruct WHY as [X|[X|X]].
      + change (k_asked s1) with (k_asked s) in X. congruence.
      + rewrite N1, Q1 in X. cbn [q_f Quorums] in X.
        assert (Y : pool n h - getMaxFailures (pool n h) - 1 <= length (holding (fun _ => true) (k_proofs s1))).
        { apply holding_at_least; [exact B2|]. apply (at_least_weaken _ _ _) with (2 := AN). intros m. rewrite <- B4.
          destruct (get m (k_proofs s1)) as [v|]; [intros _; exists v; auto|congruence]. }
        pose proof (filter_le (fun x : nat * option cproof => true) (k_proofs s1)). unfold holding in Y. lia.
      + rewrite Q1 in X. cbn [q_f Quorums] in X.
        assert (Y : getMaxFailures (pool n h) + 1 <= length (filter (fun x => e_size e <? x) (sizes_of e s1))).
        { apply SZ; [apply Nat.ltb_irrefl|]. apply (at_least_weaken _ _ _) with (2 := AE). intros m (c0 & G & Lt). exists c0.
          split; [exact G|apply Nat.ltb_lt; exact Lt]. }
        lia.
    - destruct (LG [LAskProof (e_size e) b (e_eligible e)]) as (LG1 & LG2). { unfold s_asked. rewrite T. reflexivity. }
      rewrite Q1 in C1, C2. cbn [q_f Quorums] in C1, C2. split.
      + intros a b' nodes J. apply LG1 in J. destruct J as [J|[]]. injection J as <- <- <-.
        split; [exact NA|]. split; [rewrite LG2; unfold s_asked; rewrite T; reflexivity|]. split; [reflexivity|]. split; [exact Lb|]. split; [reflexivity|]. split.
        * apply (at_least_weaken _ (fun m => exists c, last_word m h' = Some (Some c) /\ (b <=? c_end c) = true)).
          { intros m (c0 & G & Le). exists c0. split; [exact G|apply Nat.leb_le; exact Le]. }
          apply (SZ (fun x => b <=? x)); [apply Nat.leb_gt; exact Lb|]. lia.
        * intros AL. assert (Y : getMaxFailures (pool n h) + 1 <= length (filter (fun x => b <? x) (sizes_of e s1))).
          { apply (SZ (fun x => b <? x)); [apply Nat.ltb_ge; lia|]. apply (at_least_weaken _ _ _) with (2 := AL). intros m (c0 & G & Lt). exists c0.
            split; [exact G|apply Nat.ltb_lt; exact Lt]. }
          lia.
      + intros _ _ _. exists b. apply LG1. left. reflexivity.
  Qed.

  (** A status that shows this node to be behind is answered with this node's own status,
      for which the sender will give a proof. *)
  Theorem C39_newer : forall n h e st frm, let s := run h (init n) in
    k_working s = true -> ls_ledger st = lid -> e_seqNo e < ls_size st ->
    news s (e, OStatus st frm) = [LStatus (mkLS lid (e_size e) (Some 0) (Some 0) (e_root e)) [frm]] /\
    k_tproof (step s (e, OStatus st frm)) = true.
  Proof.
    intros n h e st frm s W EL LT.
    assert (EQ : step s (e, OStatus st frm) = with_timers (k_tstatus s) true (k_pending s) (emit (LStatus (my_status lid e) [frm]) s)).
    { cbn [ConsProof_Model.step]. unfold process_ledger_status. rewrite EL, Nat.eqb_refl, W. cbn [negb].
      destruct (Nat.ltb_spec (e_seqNo e) (ls_size st)); [reflexivity|lia]. }
    split; [|rewrite EQ; reflexivity]. apply news_app. rewrite EQ. reflexivity.
  Qed.

  (** When its timer runs out, every other node that has not said that it is not longer is
      asked for its status again ... *)
  Theorem C39_asks_statuses : forall n h e, let s := run h (init n) in
    k_working s = true -> k_tstatus s = true ->
    exists nodes, news s (e, OTimerStatus) = [LAskStatus (Some nodes)] /\
      forall m, In m nodes <-> In m (e_names e) /\ m <> e_self e /\ confirmed m h = false.
  Proof.
    intros n h e s W T. pose proof (inv_run lid n h) as (_ & IV). fold s in IV. destruct (IV W) as (A1 & A2 & A3 & A4 & A5 & A6).
    eexists. split.
    - apply news_app. cbn [ConsProof_Model.step]. rewrite T. reflexivity.
    - intros m. rewrite filter_In, andb_true_iff, !negb_true_iff, Nat.eqb_neq.
      assert (X : existsb (Nat.eqb m) (k_same s) = confirmed m h).
      { destruct (confirmed m h) eqn:C.
        - apply mem_in. apply A5. exact C.
        - destruct (existsb (Nat.eqb m) (k_same s)) eqn:F; [|reflexivity]. apply mem_in, A5 in F. congruence. }
      rewrite X. tauto.
  Qed.
  (** ... and every other node that has not been heard gets this node's status again. *)
  Theorem C39_sends_status : forall n h e, let s := run h (init n) in
    k_working s = true -> k_tproof s = true ->
    exists nodes, news s (e, OTimerProof) = [LStatus (mkLS lid (e_size e) (Some 0) (Some 0) (e_root e)) nodes] /\
      forall m, In m nodes <-> In m (e_names e) /\ m <> e_self e /\ last_word m h = None.
  Proof.
    intros n h e s W T. pose proof (inv_run lid n h) as (_ & IV). fold s in IV. destruct (IV W) as (A1 & A2 & A3 & A4 & A5 & A6).
    eexists. split.
    - apply news_app. cbn [ConsProof_Model.step]. rewrite T. reflexivity.
    - intros m. rewrite filter_In, andb_true_iff, !negb_true_iff, Nat.eqb_neq.
      assert (X : existsb (Nat.eqb m) (map fst (k_proofs s)) = false <-> last_word m h = None).
      { rewrite <- A4, get_none. destruct (existsb (Nat.eqb m) (map fst (k_proofs s))) eqn:F.
        - apply mem_in in F. split; [discriminate|]. intros Y. destruct (Y F).
        - split; [|reflexivity]. intros _ Y. apply mem_in in Y. congruence. }
      rewrite X. tauto.
  Qed.

  (** The first timer runs as long as the search does, until f+1 nodes' last words have at
      some time been proofs; then another timer is set. *)
  Theorem C39_timer_partial : forall n h, let s := run h (init n) in
    k_working s = true ->
    k_tstatus s = true \/
    exists h1 h2, h = h1 ++ h2 /\ (forall x r, In x h2 -> snd x <> OStart r) /\
      at_least (max_faulty n h + 1) (fun m => exists c, last_word m h1 = Some (Some c)).
  Proof.
    intros n h. induction h as [|x h IH] using rev_ind; [discriminate|]. cbn zeta. rewrite run_snoc. cbn zeta in IH.
    pose proof (inv_run lid n h) as (IN & IV). set (s := run h (init n)) in *.
    destruct (match snd x with OStart _ => true | _ => false end) eqn:IS.
    { destruct x as (e, [r| | | | |]); try discriminate. intros _. left. apply (start_fields e r s). }
    assert (NS : match snd x with OStart _ => False | _ => True end) by (destruct x as (e, []); cbn in *; congruence || exact I).
    assert (NS' : forall r, snd x <> OStart r) by (intros r E; rewrite E in NS; exact NS).
    assert (PN : max_faulty n (h ++ [x]) = max_faulty n h).
    { unfold max_faulty. rewrite pool_snoc. destruct x as (e, []); cbn in *; congruence || reflexivity. }
    rewrite PN.
    assert (GO : k_working s = true -> k_tstatus (step s x) = k_tstatus s ->
      k_tstatus (step s x) = true \/ exists h1 h2, h ++ [x] = h1 ++ h2 /\ (forall x r, In x h2 -> snd x <> OStart r) /\
        at_least (max_faulty n h + 1) (fun m => exists c, last_word m h1 = Some (Some c))).
    { intros W ->. destruct (IH W) as [T|(h1 & h2 & E & A & AL)]; [left; exact T|]. right. exists h1, (h2 ++ [x]).
      split; [rewrite E, app_assoc; reflexivity|]. split; [|exact AL]. intros y r J. apply in_app_iff in J as [J|[<-|[]]]; auto. }
    destruct (counted lid s x) eqn:C.
    2: { destruct (other_step lid s x C NS) as (_ & O2 & _ & _ & _ & O6 & _). rewrite O2. intros W. apply GO; assumption. }
    destruct (counted_inv lid s x C) as (W & K). specialize (IV W).
    destruct K as [(e & ss & frm & -> & E)|(e & c & frm & -> & E)].
    - destruct (status_step lid h e ss frm s W IV E) as (V1 & [(AL & EQ)|(NAL & EQ)]).
      + rewrite EQ, (proj2 (finish_none_fields lid e _)). discriminate.
      + intros _. apply GO; [exact W|]. rewrite EQ. apply (s_status_fields e ss frm s).
    - destruct (proof_step lid h e c frm s W IV E) as (V1 & V3 & [(AL & EQ)|(NAL & EQ)]).
      + rewrite EQ, (proj2 (finish_none_fields lid e _)). discriminate.
      + destruct (latest_reliable _ _ _) in EQ; [rewrite EQ, (proj2 (finish_fields _ _)); discriminate|]. intros _.
        destruct (s_asked_fields e (s_proof c frm s)) as (G1 & G2 & G3 & G4 & G5 & G6 & G7 & G8).
        destruct (should_schedule (s_asked e (s_proof c frm s))) eqn:SS.
        * right. exists (h ++ [(e, OProof c frm)]), []. rewrite app_nil_r. split; [reflexivity|]. split; [intros y r []|].
          unfold should_schedule in SS. apply Nat.eqb_eq in SS. rewrite G4 in SS. unfold q in SS. rewrite G1 in SS.
          destruct V1 as (B1 & B2 & B3 & B4 & B5 & B6).
          assert (X : getMaxFailures (pool n h) + 1 <= length (holding (fun p => negb (null p)) (k_proofs (s_proof c frm s)))).
          { unfold max_faulty. change (k_n (s_proof c frm s)) with (k_n s) in SS. rewrite IN in SS. cbn [q_f Quorums] in SS. rewrite <- SS.
            apply Nat.eq_le_incl. unfold holding. f_equal. apply filter_ext. intros (m, [c0|]); reflexivity. }
          apply holding_at_least in X; [|exact B2]. apply (at_least_weaken _ _ _) with (2 := X).
          intros m ([c0|] & G & N); [|discriminate]. exists c0. rewrite <- B4. exact G.
        * apply GO; [exact W|]. rewrite EQ. unfold s_sched. rewrite SS. exact G6.
  Qed.

  (** *** Nothing raises *)
  Lemma insert_asc_len {A} (x : A * nat) l : length (insert_asc x l) = S (length l).
  Proof. induction l as [|y l IH]; cbn [insert_asc length]; [reflexivity|]. destruct (snd x <=? snd y); cbn [length]; [reflexivity|]. rewrite IH. reflexivity. Qed.
  Lemma insert_asc_in {A} (x y : A * nat) l : In y (insert_asc x l) -> y = x \/ In y l.
  Proof. induction l as [|z l IH]; cbn [insert_asc]; [intros [E|[]]; auto|]. destruct (snd x <=? snd z); cbn; [intuition congruence|]. intros [E|J]; [auto|]. destruct (IH J); auto. Qed.
  Lemma params_ok e gs : gs <> [] -> exists b r g, request_params e gs = Some (e_size e, b) /\ In (r, g) gs /\ snd r = b.
  Proof.
    intros N. unfold request_params. set (l := map (fun '(r, g) => (r, fold_right Nat.max 0 (map snd g))) gs).
    assert (LN : forall l : list ((nat * nat) * nat), length (fold_right insert_asc [] l) = length l).
    { induction l0 as [|x l0 IH]; [reflexivity|]. cbn [fold_right]. rewrite insert_asc_len, IH. reflexivity. }
    assert (IL : forall (l : list ((nat * nat) * nat)) y, In y (fold_right insert_asc [] l) -> In y l).
    { induction l0 as [|x l0 IH]; [intros y []|]. cbn [fold_right]. intros y J. apply insert_asc_in in J as [->|J]; [left; reflexivity|right; apply IH; exact J]. }
    destruct (nth_error (fold_right insert_asc [] l) (Nat.div2 (length gs))) as [((a, b), k)|] eqn:E.
    - apply nth_error_In, IL in E. unfold l in E. apply in_map_iff in E as ((r, g) & E & J). exists b, r, g.
      split; [reflexivity|]. split; [exact J|]. injection E as -> _. reflexivity.
    - exfalso. apply nth_error_None in E. rewrite LN in E. unfold l in E. rewrite map_length in E.
      destruct gs as [|g gs]; [congruence|]. pose proof (Nat.lt_div2 (length (g :: gs)) ltac:(cbn; lia)). lia.
  Qed.

  (** When that timer runs out and nothing has been decided, one more proof is asked for:
      from the ledger to where one of the last proofs ends. *)
  Theorem C39_asks_again : forall n h e, let s := run h (init n) in
    k_working s = true -> k_pending s = true ->
    ~ at_least (pool n h - max_faulty n h - 1) (fun m => confirmed m h = true) ->
    (forall c, c_start c = e_size e -> ~ backed (max_faulty n h + 1) c h) ->
    (exists m c, last_word m h = Some (Some c)) ->
    exists b m c, last_word m h = Some (Some c) /\ c_end c = b /\
      news s (e, OTimerCPs) = [LAskProof (e_size e) b (e_eligible e)] /\ k_pending (step s (e, OTimerCPs)) = false.
  Proof.
    intros n h e s W P NAL NB (m0 & c0 & E0). pose proof (inv_run lid n h) as (IN & IV). fold s in IN, IV. specialize (IV W).
    assert (Q : q s = Quorums (pool n h)) by (unfold q; congruence).
    set (s0 := with_timers (k_tstatus s) (k_tproof s) false s).
    assert (V0 : Votes lid h s0) by exact IV. assert (Q0 : q s0 = Quorums (pool n h)) by exact Q.
    destruct V0 as (B1 & B2 & B3 & B4 & B5 & B6). assert (V0 : Votes lid h s0) by exact IV.
    assert (NN : is_catchup_needed s0 = true).
    { destruct (is_catchup_needed s0) eqn:D; [reflexivity|]. apply (not_needed lid h s0 V0) in D. rewrite Q0 in D. destruct (NAL D). }
    destruct (group_ok (k_proofs s0)) as (G & GN). destruct G as (G1 & G2 & G3).
    assert (J0 : In c0 (somes (k_proofs s0))).
    { unfold somes. apply in_flat_map. exists (m0, Some c0). split; [apply get_in; rewrite B4; exact E0|left; reflexivity]. }
    destruct (G3 c0 J0) as (g0 & Gg & _).
    assert (NE : fst (group (k_proofs s0)) <> []) by (intros X; rewrite X in Gg; destruct Gg).
    destruct (params_ok e (fst (group (k_proofs s0))) NE) as (b & r & g & RP & Jr & Er).
    assert (LN : length (k_proofs s0) <> 0) by (destruct (k_proofs s0); [destruct J0|discriminate]).
    assert (NR : is_reached (ledger_status (q s0)) (snd (group (k_proofs s0))) = false).
    { rewrite GN. apply Nat.leb_gt. rewrite Q0. pose proof (nulls_le lid h s0 V0) as X.
      assert (Y : length (k_same s0) < ledger_status (Quorums (pool n h))).
      { rewrite (needed lid h s0 V0), Q0 in NN. apply negb_true_iff, Nat.leb_gt in NN. exact NN. }
      lia. }
    assert (LR : latest_reliable e s0 (fst (group (k_proofs s0))) = None).
    { destruct (latest_reliable e s0 (fst (group (k_proofs s0)))) as [cp|] eqn:LR; [|reflexivity]. exfalso.
      destruct (latest_some e s0 _ _ cp (proj1 (group_ok _)) LR) as (_ & X2 & X3 & _). apply (NB cp X3).
      apply (votes_backed h s0 cp _ V0). rewrite Q0 in X2. exact X2. }
    assert (EQ : step s (e, OTimerCPs) = emit (LAskProof (e_size e) b (e_eligible e)) s0).
    { cbn [ConsProof_Model.step]. rewrite P. fold s0. unfold request_CPs_if_needed. change (k_working s0) with (k_working s). rewrite W. cbn [negb].
      destruct (Nat.eqb_spec (length (k_proofs s0)) 0); [congruence|]. rewrite NN. cbn [negb].
      destruct (group (k_proofs s0)) as (gs, nulls). cbn [fst snd] in *. rewrite NR. destruct gs as [|g1 gs]; [congruence|]. cbn [length Nat.eqb orb].
      rewrite LR, RP. reflexivity. }
    destruct (G2 r g Jr) as (Ng & _ & Gc). destruct g as [|(c, k) g]; [congruence|]. destruct (Gc c k (or_introl eq_refl)) as (Erc & Ek & Pk).
    assert (Jc : In c (somes (k_proofs s0))) by (apply (count_occ_In cp_eq_dec); unfold occ in Ek; lia).
    unfold somes in Jc. apply in_flat_map in Jc as ((m, v) & Jm & Jv). cbn [snd] in Jv. destruct v as [c'|]; [|destruct Jv]. destruct Jv as [->|[]].
    exists b, m, c. split; [rewrite <- B4; apply in_get; assumption|]. split; [subst r; cbn [snd] in Er; exact Er|].
    split; [|rewrite EQ; reflexivity]. apply news_app. rewrite EQ. reflexivity.
  Qed.

  Theorem C39_never_raises : forall n h x, ~ In (LRaise x) (k_log (run h (init n))).
  Proof.
    intros n h y. induction h as [|x h IH] using rev_ind; [intros []|]. rewrite run_snoc.
    pose proof (inv_run lid n h) as (IN & IV). set (s := run h (init n)) in *.
    assert (AP : forall l y0, ~ In (LRaise y0) l -> In (LRaise y0) (k_log s ++ l) -> In (LRaise y0) (k_log s)).
    { intros l y0 N J. apply in_app_iff in J as [J|J]; [exact J|destruct (N J)]. }
    destruct x as (e, o). destruct o as [r|ss frm|c frm| | |].
    - cbn [ConsProof_Model.step]. destruct (start_fields e r s) as (_ & _ & _ & _ & _ & _ & _ & ->). intros J. apply IH. revert J. apply AP.
      destruct r; [intros [J|[]]; discriminate|intros []].
    - destruct (counted lid s (e, OStatus ss frm)) eqn:C.
      + destruct (counted_inv lid s _ C) as (W & K). cbn [counted] in C. rewrite W in C. cbn [andb] in C.
        destruct (status_step lid h e ss frm s W (IV W) C) as (V1 & [(AL & EQ)|(NAL & EQ)]); rewrite EQ; intros J; apply IH; revert J.
        * rewrite finish_none_log. destruct (s_status_fields e ss frm s) as (_ & _ & _ & _ & _ & _ & ->). apply AP. intros [J|[]]; discriminate.
        * destruct (s_status_fields e ss frm s) as (_ & _ & _ & _ & _ & _ & ->). auto.
      + cbn [counted ConsProof_Model.step] in *. unfold process_ledger_status. destruct (negb (ls_ledger ss =? lid)) eqn:E1; [exact IH|].
        destruct (k_working s) eqn:W; cbn [negb andb] in *; [|exact IH]. apply negb_false_iff in E1. unfold not_newer in C. rewrite E1 in C. cbn [andb] in C.
        apply Nat.leb_gt in C. destruct (Nat.ltb_spec (e_seqNo e) (ls_size ss)); [|lia]. cbn. intros J. apply IH. revert J. apply AP. intros [J|[]]; discriminate.
    - destruct (counted lid s (e, OProof c frm)) eqn:C.
      + destruct (counted_inv lid s _ C) as (W & K). cbn [counted] in C. rewrite W in C. cbn [andb] in C.
        destruct (proof_step lid h e c frm s W (IV W) C) as (V1 & V3 & [(AL & EQ)|(NAL & EQ)]).
        * rewrite EQ, finish_none_log. intros J; apply IH; revert J. apply AP. intros [J|[]]; discriminate.
        * assert (LA : k_log (s_sched (s_asked e (s_proof c frm s))) = k_log (s_asked e (s_proof c frm s))) by apply s_sched_fields.
          assert (LB : exists l, k_log (s_asked e (s_proof c frm s)) = k_log s ++ l /\ ~ In (LRaise y) l).
          { unfold s_asked. destruct (try_asking_cases e (s_proof c frm s) (proof_nonempty c frm s)) as [(-> & _)|(_ & _ & b & _ & _ & _ & ->)]; cbn.
            - exists []. rewrite app_nil_r. auto.
            - eexists. split; [reflexivity|]. intros [J|[]]; discriminate. }
          destruct LB as (l & LB & NL). intros J. apply IH. revert J.
          destruct (latest_reliable _ _ _) in EQ; rewrite EQ; rewrite ?finish_log, LA, LB.
          -- rewrite <- app_assoc. apply AP. intros J. apply in_app_iff in J as [J|[J|[]]]; [exact (NL J)|discriminate].
          -- apply AP. exact NL.
      + cbn [counted ConsProof_Model.step] in *. unfold process_consistency_proof. destruct (c_ledger c =? lid) eqn:E1; cbn [negb]; [|exact IH].
        destruct (k_working s) eqn:W; cbn [negb andb] in *; [|exact IH]. unfold usable in C. rewrite E1 in C. cbn [andb] in C.
        destruct (Nat.ltb_spec (e_size e) (c_start c)); [cbn; intros J; apply IH; revert J; apply AP; intros [J|[]]; discriminate|].
        destruct (Nat.leb_spec (c_start c) (e_size e)); [|lia]. cbn [andb] in C. apply Nat.ltb_ge in C.
        destruct (Nat.leb_spec (c_end c) (c_start c)); [|lia]. cbn; intros J; apply IH; revert J; apply AP; intros [J|[]]; discriminate.
    - cbn [ConsProof_Model.step]. destruct (k_tstatus s); [|exact IH]. cbn. intros J; apply IH; revert J; apply AP; intros [J|[]]; discriminate.
    - cbn [ConsProof_Model.step]. destruct (k_tproof s); [|exact IH]. cbn. intros J; apply IH; revert J; apply AP; intros [J|[]]; discriminate.
    - cbn [ConsProof_Model.step]. destruct (k_pending s); [|exact IH]. set (s0 := with_timers (k_tstatus s) (k_tproof s) false s).
      unfold request_CPs_if_needed. destruct (negb (k_working s0)); [exact IH|]. destruct (length (k_proofs s0) =? 0); [exact IH|].
      destruct (negb (is_catchup_needed s0)); [exact IH|]. destruct (group (k_proofs s0)) as (gs, nulls).
      destruct (is_reached (ledger_status (q s0)) nulls); [exact IH|]. cbn [orb]. destruct gs as [|g gs]; [exact IH|]. cbn [length Nat.eqb].
      destruct (latest_reliable e s0 (g :: gs)); [exact IH|]. destruct (params_ok e (g :: gs) ltac:(discriminate)) as (b & r & g1 & -> & _).
      cbn. intros J; apply IH; revert J; apply AP; intros [J|[]]; discriminate.
  Qed.
End Props.

(** If the correct nodes answer from ledgers that are prefixes of the agreed transactions,
    every target is one of the agreed transactions: what C38 needs. *)
Section Targets.
  Variable H : bytes -> bytes.
  Variable B : Type.
  Variable ser_log : txn B -> bytes.
  Variable deser_log : bytes -> txn B.
  Variable ser_tree : txn B -> bytes.
  Hypothesis deser_ser : forall x, deser_log (ser_log x) = x.
  Hypothesis ser_nonempty : forall x, ser_log x <> [].
  Hypothesis digest_nonempty : forall x, H x <> [].
  Variable L : list (txn B).
  Variable lid : nat.

  (** [c] is a proof that some correct node gives. *)
  Definition correct_proof (c : cproof) : Prop :=
    exists ledgers p s a b, ledgers lid = Some p /\ Keeps H B ser_log deser_log ser_tree p s /\ prefix B (committed s) L /\
      build_consistency_proof H B ledgers lid a b = Ok (Some c).

  Theorem C39_true_target : forall (faulty : list nat) n h e o t sizes,
    let h' := h ++ [(e, o)] in
    (forall e' c m, In (e', OProof c m) h' -> ~ In m faulty -> correct_proof c) -> length faulty <= max_faulty n h' ->
    In (LStart (Some t) sizes) (news lid (run lid h (init n)) (e, o)) -> t_start t <> t_final t ->
    t_start t = e_size e /\ e_size e < t_final t /\ good_till H B ser_tree L t.
  Proof.
    intros faulty n h e o t sizes h' HT LF J NE.
    destruct (C39_genuine lid correct_proof faulty n h e o t sizes HT LF J NE) as (c & Et & Es & Lt & (ledgers & p & s & a & b & EL & K & P & EB)).
    split; [subst t; reflexivity|]. split; [subst t; cbn [t_final]; lia|].
    assert (AB : c_start c = a /\ c_end c = b).
    { revert EB. unfold build_consistency_proof. rewrite EL. destruct (b <? a); [discriminate|].
      destruct (_ <? a); [discriminate|]. destruct (_ <? b); [discriminate|].
      match goal with |- bind ?x _ = _ -> _ => destruct x as [(old, pf)|] end; cbn [bind]; [|discriminate].
      destruct (merkle_tree_hash H (l_store (p_base p)) 0 b); cbn [bind]; [|discriminate]. intros EQ. injection EQ as <-. auto. }
    destruct AB as (Ea & Eb).
    assert (Hab : a < b) by lia.
    destruct (C51_new_root H B ser_log deser_log ser_tree deser_ser ser_nonempty digest_nonempty L ledgers lid p s a b c EL K P EB Hab)
      as (_ & _ & _ & Lb & M).
    subst t. unfold good_till. cbn [t_final t_hash]. rewrite Eb. split; [exact Lb|]. exists (c_new c). auto.
  Qed.
End Targets.

(** ** Concrete cases *)
(** This node is 0 of four; its ledger 1 has [z] of the agreed transactions. *)
Definition ex_env (z : nat) : env := mkEnv z z [1%N] [0; 1; 2; 3] 0 [1; 2; 3].
Definition ex_n7 : pledger N := Eval vm_compute in made (firstn 7 exB) [].
Example ex_keeps7 : Keeps toyH N ser1 deser1 ser1 ex_n7 (mkLst (firstn 7 exL) (numbered 7 []) true).
Proof. apply (made_keeps (firstn 7 exB)). vm_compute. reflexivity. Qed.
(** what the correct node with ledger [p] answers to a status with size [z] *)
Definition answer (p : pledger N) (z : nat) : list cproof :=
  match Seeder_Model.process_ledger_status toyH N (one p) false 1 z with Ok (RProof c) => [c] | _ => [] end.
Definition proof_from (p : pledger N) (z : nat) (frm : nat) : list (env * op) :=
  map (fun c => (ex_env z, OProof c frm)) (answer p z).
Definition status_from (z size : nat) (r : bytes) (frm : nat) : env * op :=
  (ex_env z, OStatus (mkLS 1 size None None r) frm).

(** Two of the others have eight transactions, one has six: the target is eight. *)
Definition ex_hist : list (env * op) :=
  (ex_env 4, OStart true) :: status_from 4 8 [2%N] 1 :: proof_from ex_n8 4 1 ++ proof_from ex_n6 4 3.
Example C39_target_example :
  let s := run 1 ex_hist (init 4) in
  exists c, answer ex_n8 4 = [c] /\ k_working s = true /\
    news 1 s (ex_env 4, OProof c 2) = [LStart (Some (mkTill 4 8 (Some (c_new c)))) [(1, 8); (3, 6); (2, 8)]] /\
    max_faulty 4 (ex_hist ++ [(ex_env 4, OProof c 2)]) = 1 /\ In (LAskProof 4 6 [1; 2; 3]) (k_log s) /\
    k_tstatus s = false /\ k_pending s = true.
Proof.
  assert (X : match answer ex_n8 4 with
              | [c] => k_working (run 1 ex_hist (init 4)) = true /\
                  news 1 (run 1 ex_hist (init 4)) (ex_env 4, OProof c 2) = [LStart (Some (mkTill 4 8 (Some (c_new c)))) [(1, 8); (3, 6); (2, 8)]] /\
                  max_faulty 4 (ex_hist ++ [(ex_env 4, OProof c 2)]) = 1 /\ In (LAskProof 4 6 [1; 2; 3]) (k_log (run 1 ex_hist (init 4))) /\
                  k_tstatus (run 1 ex_hist (init 4)) = false /\ k_pending (run 1 ex_hist (init 4)) = true
              | _ => False end).
  { vm_compute. split; [reflexivity|]. split; [reflexivity|]. split; [reflexivity|]. split; [auto|]. auto. }
  destruct (answer ex_n8 4) as [|c [|]]; try contradiction. exists c. split; [reflexivity|exact X].
Qed.
(** Two nodes with no more than this one: up to date, with a target if both name a 3PC key. *)
Example C39_uptodate_example :
  (let s := run 1 [(ex_env 4, OStart true); status_from 4 4 [1%N] 1] (init 4) in
   news 1 s (status_from 4 3 [7%N] 2) = [LStart None []]) /\
  let st := mkLS 1 4 (Some 2) (Some 9) [1%N] in
  let s := run 1 [(ex_env 4, OStart false); (ex_env 4, OStatus st 1)] (init 4) in
  news 1 s (ex_env 4, OStatus st 2) = [LStart (Some (mkTill 4 4 (Some [1%N]))) []].
Proof. vm_compute. auto. Qed.

(** The statuses that declare a ledger up to date need not match it: their roots are never
    compared. Here every node names another root than this node's. *)
Theorem C39_matching_refuted :
  exists h e o t sizes, In (LStart t sizes) (news 1 (run 1 h (init 4)) (e, o)) /\ (forall t', t = Some t' -> t_start t' = t_final t') /\
    forall e' st m, In (e', OStatus st m) (h ++ [(e, o)]) -> ls_root st <> e_root e'.
Proof.
  exists [(ex_env 4, OStart true); status_from 4 4 [7%N] 1], (ex_env 4), (OStatus (mkLS 1 4 None None [7%N]) 2), None, [].
  split; [vm_compute; auto|]. split; [discriminate|]. intros e' st m [E|[E|[E|[]]]]; try discriminate; unfold status_from in E; injection E as <- <- <-; discriminate.
Qed.

(** After its one-shot timer the search has no timer left: if the answers to these last
    requests are lost, nothing is ever asked again, although the search goes on. *)
Definition is_timer (o : op) : bool := match o with OTimerStatus | OTimerProof | OTimerCPs => true | _ => false end.
Lemma no_timers lid : forall os s, k_tstatus s = false -> k_tproof s = false -> k_pending s = false ->
  (forall x, In x os -> is_timer (snd x) = true) -> run lid os s = s.
Proof.
  induction os as [|(e, o) os IH]; intros s A C D F; [reflexivity|]. cbn [run fold_left].
  assert (E : step lid s (e, o) = s).
  { specialize (F (e, o) (or_introl eq_refl)). cbn [snd] in F. destruct o; try discriminate; cbn [step]; rewrite ?A, ?C, ?D; reflexivity. }
  rewrite E. apply IH; auto. intros x J. apply F. right. exact J.
Qed.
Theorem C39_stuck_refuted :
  exists h, (forall e c m, In (e, OProof c m) h -> In c (answer ex_n8 4 ++ answer ex_n6 4)) /\
    let s := run 1 h (init 4) in
    k_working s = true /\ forall os, (forall x, In x os -> is_timer (snd x) = true) -> run 1 os s = s.
Proof.
  exists (ex_hist ++ [(ex_env 4, OTimerCPs)]). split.
  - intros e c m J. apply in_app_iff in J as [J|J]; [|destruct J as [J|[]]; discriminate J].
    unfold ex_hist in J. apply in_inv in J as [J|J]; [discriminate J|]. apply in_inv in J as [J|J]; [discriminate J|].
    unfold proof_from in J. apply in_app_iff. apply in_app_iff in J as [J|J]; apply in_map_iff in J as (c' & E & J); injection E as _ <- _; [left|right]; exact J.
  - cbn zeta. assert (X : let s := run 1 (ex_hist ++ [(ex_env 4, OTimerCPs)]) (init 4) in
      k_working s = true /\ k_tstatus s = false /\ k_tproof s = false /\ k_pending s = false) by (vm_compute; auto).
    destruct X as (X1 & X2 & X3 & X4). split; [exact X1|]. intros os F. apply no_timers; assumption.
Qed.
(** A node with an empty ledger gets there although no message is lost and all others are
    correct: their three proofs differ, and the requests for equal ones, which start from
    0, are answered by nobody. *)
Definition ex_empty : list (env * op) :=
  (ex_env 0, OStart true) :: proof_from ex_n6 0 1 ++ proof_from ex_n7 0 2 ++ proof_from ex_n8 0 3 ++ [(ex_env 0, OTimerCPs)].
Theorem C39_empty_stuck_refuted :
  (forall p z c, In p [ex_n6; ex_n7; ex_n8] -> In c (answer p z) -> correct_proof toyH N ser1 deser1 ser1 exL 1 c) /\
  let s := run 1 ex_empty (init 4) in
  k_working s = true /\ (forall os, (forall x, In x os -> is_timer (snd x) = true) -> run 1 os s = s) /\
  (forall a b nodes, In (LAskProof a b nodes) (k_log s) -> a = 0 /\ nodes = [1; 2; 3]) /\
  (exists b, In (LAskProof 0 b [1; 2; 3]) (k_log s)) /\
  forall p b ids, serve_consistency_proof toyH N (one p) ids (Some 1) (Some 0) (Some b) = Ok RNothing.
Proof.
  split.
  - intros p z c J K. unfold answer in K.
    assert (PX : exists s, Keeps toyH N ser1 deser1 ser1 p s /\ prefix N (committed s) exL).
    { destruct J as [<-|[<-|[<-|[]]]]; eexists; (split; [first [exact ex_keeps6|exact ex_keeps7|exact ex_keeps8]|]); cbn [committed].
      - exists (skipn 6 exL). symmetry. apply firstn_skipn.
      - exists (skipn 7 exL). symmetry. apply firstn_skipn.
      - exists []. rewrite app_nil_r. reflexivity. }
    destruct PX as (s & K1 & K2). unfold Seeder_Model.process_ledger_status in K. cbn [one Nat.eqb] in K.
    destruct (size (p_base p) <=? z); [destruct K|].
    destruct (build_consistency_proof toyH N (one p) 1 z (size (p_base p))) as [[c'|]|x] eqn:E; cbn [bind] in K; try destruct K as [<-|[]]; try destruct K.
    exists (one p), p, s, z, (size (p_base p)). auto.
  - assert (X : let s := run 1 ex_empty (init 4) in
      k_working s = true /\ k_tstatus s = false /\ k_tproof s = false /\ k_pending s = false /\
      k_log s = [LAskStatus None; LAskProof 0 6 [1; 2; 3]; LAskProof 0 7 [1; 2; 3]]) by (vm_compute; auto).
    cbn zeta in *. destruct X as (X1 & X2 & X3 & X4 & X5). split; [exact X1|]. split; [intros os F; apply no_timers; assumption|].
    rewrite X5. clear. split.
    { intros a b nodes J. destruct J as [J|J]; [discriminate J|]. destruct J as [J|J]; [injection J as <- _ <-; split; reflexivity|].
      destruct J as [J|J]; [injection J as <- _ <-; split; reflexivity|destruct J]. }
    split; [exists 6; right; left; reflexivity|]. intros p b ids. apply C51_serve_empty.
Qed.

Print Assumptions C39_target.
Print Assumptions C39_uptodate_partial.
Print Assumptions C39_decides.
Print Assumptions C39_once.
Print Assumptions C39_genuine.
Print Assumptions C39_asks.
Print Assumptions C39_newer.
Print Assumptions C39_asks_statuses.
Print Assumptions C39_sends_status.
Print Assumptions C39_timer_partial.
Print Assumptions C39_asks_again.
Print Assumptions C39_never_raises.
Print Assumptions C39_true_target.
Print Assumptions C39_matching_refuted.
Print Assumptions C39_stuck_refuted.
Print Assumptions C39_empty_stuck_refuted.
