(** Proofs of C100. *)
From Coq Require Import List Arith ZArith Bool Lia.
From Verif Require Import Quorum_Model Validator_Model Suspect_Model Suspect_Spec.
From Verif Require Trigger_Model Trigger_Props.
Import ListNotations.

Lemma process_view d i v s : validate_3pc d i v s = PROCESS -> v = d_view d.
Proof.
  unfold validate_3pc, validate_base; intros H.
  destruct (negb (i =? d_inst d)); [discriminate|]; destruct (s =? 0); [discriminate|]; destruct (s <=? d_low d); [discriminate|].
  destruct (v <? d_view d) eqn:A; [discriminate|]; destruct (d_view d <? v) eqn:B; [discriminate|].
  apply Nat.ltb_ge in A, B; lia.
Qed.

Lemma from_primary_now r sender : from_primary r (d_view (r_data r)) sender = true <-> is_primary r sender.
Proof.
  unfold from_primary, is_primary; rewrite Nat.eqb_refl; destruct (r_primary r) as [p|].
  - rewrite Nat.eqb_eq; split; [intros ->; reflexivity|intros E; injection E as E; exact E].
  - split; discriminate.
Qed.

Section D.
Variable digest : list nat -> nat -> nat -> nat.

Lemma exact r p f sender :
  votes digest r (MPrePrepare p f) sender <> [] <->
  at_hand r p /\ (~ right_digest digest p \/ (right_digest digest p /\ is_primary r sender /\ to_blame f)).
Proof.
  unfold votes, at_hand.
  destruct (d_is_master (r_data r)) eqn:M; [|split; [congruence|intros [(? & _) _]; discriminate]].
  cbn [suspicions]. destruct (validate_3pc (r_data r) (p_inst p) (p_view p) (p_seq p)) eqn:V;
    try (split; [intros H; exfalso; apply H; reflexivity|intros [(_ & H & _) _]; discriminate]).
  unfold check_pre_prepare, has_already_ordered, le_3pc; cbn [snd].
  destruct (p_seq p <=? snd (d_last_ordered (r_data r))) eqn:O.
  { apply Nat.leb_le in O. split; [intros H; exfalso; apply H; reflexivity|intros [(_ & _ & H) _]; lia]. }
  apply Nat.leb_gt in O. unfold right_digest.
  destruct (digest (p_reqs p) (p_orig p) (p_time p) =? p_digest p) eqn:D; cbn [negb].
  2:{ apply Nat.eqb_neq in D. split; [|discriminate]. intros _; split; [auto|]. left; congruence. }
  apply Nat.eqb_eq in D.
  pose proof (process_view _ _ _ _ V) as E. pose proof (from_primary_now r sender) as P. rewrite <- E in P.
  destruct (from_primary r (p_view p) sender) eqn:F; cbn [negb].
  2:{ split; [intros H; exfalso; apply H; reflexivity|]. intros [_ [H|(_ & H & _)]]; [congruence|]. apply P in H; discriminate. }
  assert (Hp : is_primary r sender) by (apply P; reflexivity).
  assert (G : forall X : Prop, X <-> to_blame f -> (X <-> (true = true /\ PROCESS = PROCESS /\ snd (d_last_ordered (r_data r)) < p_seq p) /\
     (p_digest p <> digest (p_reqs p) (p_orig p) (p_time p) \/
      p_digest p = digest (p_reqs p) (p_orig p) (p_time p) /\ is_primary r sender /\ to_blame f))).
  { intros X HX; rewrite HX; split; [intros B; split; [auto|]; right; auto|]. intros [_ [H|(_ & _ & H)]]; [congruence|exact H]. }
  apply G; clear G. unfold to_blame, in_turn, bad_batch.
  destruct f as [k t o u rd nx pr ms ap]; cbn [f_known f_time_ok f_old f_unfinalised f_ordered f_next f_pool_root f_multisig f_applied].
  split.
  - intros H. destruct k; cbn in H; [congruence|]. split; [reflexivity|].
    destruct t; cbn in H; [|auto]. destruct o; cbn in H; [congruence|].
    destruct u; cbn in H; [destruct rd; cbn in H; [auto|congruence]|].
    destruct nx; cbn in H; [|congruence]. destruct pr; cbn in H; [|congruence].
    right; right; split; [auto|]. destruct ms; cbn in H; [|auto].
    right. destruct ap as [[]|]; cbn in H; try congruence; (eexists; split; [reflexivity|split; discriminate]).
  - intros [-> H]. destruct t; cbn; [|discriminate].
    destruct H as [H|[(-> & -> & ->)|[(-> & -> & -> & ->) H]]]; [discriminate|cbn; discriminate|]; cbn.
    destruct ms; cbn; [|discriminate]. destruct H as [H|(w & -> & H1 & H2)]; [discriminate|].
    destruct w; cbn; try discriminate; congruence.
Qed.

Lemma no_vote_prepare r i v s f sender : votes digest r (MPrepare i v s f) sender = [].
Proof.
  unfold votes; destruct (d_is_master (r_data r)); [|reflexivity]. cbn [suspicions].
  destruct (validate_3pc (r_data r) i v s); try reflexivity. unfold check_prepare.
  destruct (from_primary r v sender); [reflexivity|].
  destruct (pf_primary f) as [[]|], (pf_dup f), (pf_pp f), (pf_digest f), (pf_state f), (pf_txn f), (pf_audit f); cbn; try reflexivity;
    destruct (s <=? d_prev_cert (r_data r)); reflexivity.
Qed.
Lemma no_vote_commit r i v s f sender : votes digest r (MCommit i v s f) sender = [].
Proof.
  unfold votes; destruct (d_is_master (r_data r)); [|reflexivity]. cbn [suspicions].
  destruct (validate_3pc (r_data r) i v s); try reflexivity. unfold check_commit.
  destruct (cf_prepared f), (cf_dup f), (has_already_ordered (d_last_ordered (r_data r)) v s), (cf_sig f); reflexivity.
Qed.

(** at most one vote *)
Lemma one_vote r m sender : length (votes digest r m sender) <= 1.
Proof.
  destruct m as [p f|i v s f|i v s f]; [|rewrite no_vote_prepare; cbn; lia|rewrite no_vote_commit; cbn; lia].
  unfold votes; destruct (d_is_master (r_data r)); [|cbn; lia]. cbn [suspicions].
  destruct (validate_3pc (r_data r) (p_inst p) (p_view p) (p_seq p)); try (cbn; lia).
  unfold check_pre_prepare.
  destruct (has_already_ordered (d_last_ordered (r_data r)) (p_view p) (p_seq p)); [cbn; lia|].
  destruct (digest (p_reqs p) (p_orig p) (p_time p) =? p_digest p); [|cbn; lia].
  destruct (from_primary r (p_view p) sender); [|cbn; lia].
  destruct f as [[] [] [] [] [] [] [] [] [[]|]]; cbn; lia.
Qed.
End D.

(** ** the vote *)
Lemma log_on_verified window now v x why s : exists l, Trigger_Model.log (Trigger_Model.on_verified window now v x why s) = Trigger_Model.log s ++ l /\
  forall w, ~ In (Trigger_Model.LSend w) l.
Proof.
  assert (N1 : forall w, ~ In (Trigger_Model.LSend w) [Trigger_Model.LVote v x now]) by (intros w [E|[]]; discriminate).
  assert (N2 : forall w, ~ In (Trigger_Model.LSend w) [Trigger_Model.LVote v x now; Trigger_Model.LStart v now]) by (intros w [E|[E|[]]]; discriminate).
  unfold Trigger_Model.on_verified, Trigger_Model.has_inst_chng_from.
  set (s1 := Trigger_Model.update_votes window now v s).
  assert (E : Trigger_Model.log s1 = Trigger_Model.log s) by apply Trigger_Props.update_votes_log.
  destruct (match Trigger_Model.get v (Trigger_Model.ic s1) with Some d => match Trigger_Model.get x d with Some _ => true | None => false end | None => false end).
  { exists []. rewrite app_nil_r. split; [exact E|intros w []]. }
  set (s2 := Trigger_Model.add_vote now v x why s1).
  assert (E2 : Trigger_Model.log s2 = Trigger_Model.log s ++ [Trigger_Model.LVote v x now]) by (unfold s2, Trigger_Model.add_vote, Trigger_Model.note, Trigger_Model.update_db; cbn [Trigger_Model.log]; rewrite E; reflexivity).
  destruct (Trigger_Model.view_no s2 <? v); [|exists [Trigger_Model.LVote v x now]; split; [exact E2|exact N1]].
  unfold Trigger_Model.try_start, Trigger_Model.has_quorum.
  set (s3 := Trigger_Model.update_votes window now v s2).
  assert (E3 : Trigger_Model.log s3 = Trigger_Model.log s2) by apply Trigger_Props.update_votes_log.
  destruct (negb _); [exists [Trigger_Model.LVote v x now]; split; [rewrite E3; exact E2|exact N1]|].
  destruct (negb _); [exists [Trigger_Model.LVote v x now]; split; [rewrite E3; exact E2|exact N1]|].
  exists [Trigger_Model.LVote v x now; Trigger_Model.LStart v now]. split; [|exact N2]. unfold Trigger_Model.note; cbn [Trigger_Model.log]. rewrite E3, E2, <- app_assoc. reflexivity.
Qed.

Lemma send_log window now v why s : exists l,
  Trigger_Model.log (Trigger_Model.send_instance_change window now v why s) = Trigger_Model.log s ++ Trigger_Model.LSend v :: l /\
  forall w, ~ In (Trigger_Model.LSend w) l.
Proof.
  unfold Trigger_Model.send_instance_change. destruct (log_on_verified window now v 0 why (Trigger_Model.note (Trigger_Model.LSend v) s)) as (l & E & N).
  exists l. split; [|exact N]. rewrite E. unfold Trigger_Model.note; cbn [Trigger_Model.log]. rewrite <- app_assoc. reflexivity.
Qed.
Lemma on_message_vote digest window now r m sender s : votes digest r m sender <> [] ->
  exists c, votes digest r m sender = [c] /\
    on_message digest window now r m sender s = Trigger_Model.send_instance_change window now (Trigger_Model.view_no s + 1) (Z.of_nat c) s.
Proof.
  intros H. pose proof (one_vote digest r m sender) as L. unfold on_message.
  destruct (votes digest r m sender) as [|c [|c' l]]; [congruence| |cbn in L; lia].
  exists c; split; reflexivity.
Qed.

(** ** fresh votes *)
Lemma drop_fresh window now v d c : (0 < window)%Z -> (forall y vt, In (y, vt) d -> Trigger_Model.timestamp vt = now) -> Trigger_Model.drop_outdated window now v d c = (c, false).
Proof.
  intros W. induction d as [|[y vt] d IH]; cbn [Trigger_Model.drop_outdated]; intros H; [reflexivity|].
  rewrite (H y vt (or_introl eq_refl)). destruct (now <? now - window)%Z eqn:E; [apply Z.ltb_lt in E; lia|].
  apply IH. intros y' vt' I; apply (H y' vt'); right; exact I.
Qed.
Lemma update_fresh window now v s d : Trigger_Model.get v (Trigger_Model.ic s) = Some d -> (forall y vt, In (y, vt) d -> Trigger_Model.timestamp vt = now) -> Trigger_Model.update_votes window now v s = s.
Proof.
  intros G H. unfold Trigger_Model.update_votes. destruct (window <=? 0)%Z eqn:W; [reflexivity|]. apply Z.leb_gt in W.
  rewrite G, (drop_fresh window now v d (Trigger_Model.ic s) W H). destruct s; reflexivity.
Qed.
Lemma update_none window now v s : Trigger_Model.get v (Trigger_Model.ic s) = None -> Trigger_Model.update_votes window now v s = s.
Proof. intros G. unfold Trigger_Model.update_votes. destruct (window <=? 0)%Z; [reflexivity|]. rewrite G; reflexivity. Qed.

Definition voted (now : Z) (n v : nat) (who : list nat) (s : Trigger_Model.state) : Prop :=
  Trigger_Model.view_no s = v /\ Trigger_Model.nodes s = n /\
  (exists d, Trigger_Model.get (S v) (Trigger_Model.ic s) = Some d /\ map fst d = who /\ forall y vt, In (y, vt) d -> Trigger_Model.timestamp vt = now) /\
  (n - getMaxFailures n <= length who -> In (Trigger_Model.LStart (S v) now) (Trigger_Model.log s)).

Lemma add_voted window now n v x why s who :
  Trigger_Model.view_no s = v -> Trigger_Model.nodes s = n -> ~ In x who ->
  (who = [] /\ Trigger_Model.get (S v) (Trigger_Model.ic s) = None \/ exists d, Trigger_Model.get (S v) (Trigger_Model.ic s) = Some d /\ map fst d = who /\ forall y vt, In (y, vt) d -> Trigger_Model.timestamp vt = now) ->
  voted now n v (who ++ [x]) (Trigger_Model.on_verified window now (S v) x why s).
Proof.
  intros Hv Hn Hx HC.
  assert (U : Trigger_Model.update_votes window now (S v) s = s).
  { destruct HC as [[_ G]|(d & G & _ & H)]; [apply update_none; exact G|apply (update_fresh _ _ _ _ d); assumption]. }
  unfold Trigger_Model.on_verified, Trigger_Model.has_inst_chng_from. rewrite U.
  set (has := match Trigger_Model.get (S v) (Trigger_Model.ic s) with Some d => match Trigger_Model.get x d with Some _ => true | None => false end | None => false end).
  assert (Hh : has = false).
  { unfold has. destruct HC as [[_ G]|(d & G & M & _)]; rewrite G; [reflexivity|].
    destruct (Trigger_Model.get x d) eqn:Gx; [|reflexivity]. exfalso. apply Hx. rewrite <- M.
    apply Trigger_Props.get_in in Gx. apply (in_map fst) in Gx. exact Gx. }
  rewrite Hh. set (s2 := Trigger_Model.add_vote now (S v) x why s).
  assert (H2 : Trigger_Model.view_no s2 = v /\ Trigger_Model.nodes s2 = n /\
    exists d, Trigger_Model.get (S v) (Trigger_Model.ic s2) = Some d /\ map fst d = who ++ [x] /\ forall y vt, In (y, vt) d -> Trigger_Model.timestamp vt = now).
  { unfold s2, Trigger_Model.add_vote, Trigger_Model.note, Trigger_Model.update_db; cbn [Trigger_Model.view_no Trigger_Model.nodes Trigger_Model.ic]. split; [exact Hv|split; [exact Hn|]].
    unfold Trigger_Model.cache_add. rewrite Trigger_Props.get_set, Nat.eqb_refl.
    eexists; split; [reflexivity|].
    destruct HC as [[-> G]|(d & G & M & H)]; rewrite G.
    - cbn. split; [reflexivity|]. intros y vt [E|[]]. injection E as <- <-. reflexivity.
    - rewrite Trigger_Props.set_new by (apply Trigger_Props.get_none; rewrite M; exact Hx).
      rewrite map_app, M. split; [reflexivity|]. intros y vt I. apply in_app_or in I as [I|[E|[]]]; [apply (H y vt I)|].
      injection E as <- <-; reflexivity. }
  destruct H2 as (V2 & N2 & d & G2 & M2 & F2). rewrite V2.
  destruct (v <? S v) eqn:L; [|apply Nat.ltb_ge in L; lia].
  unfold Trigger_Model.try_start, Trigger_Model.has_quorum. rewrite (update_fresh window now (S v) s2 d G2 F2), G2, N2.
  change (view_change (Quorums n)) with (n - getMaxFailures n).
  destruct (n - getMaxFailures n <=? length d) eqn:Q; cbn [negb].
  - rewrite V2, L. cbn [negb]. unfold voted, Trigger_Model.note; cbn [Trigger_Model.view_no Trigger_Model.nodes Trigger_Model.ic Trigger_Model.log].
    split; [exact V2|split; [exact N2|split; [exists d; auto|]]]. intros _. apply in_or_app; right; left; reflexivity.
  - apply Nat.leb_gt in Q. unfold voted. split; [exact V2|split; [exact N2|split; [exists d; auto|]]].
    intros Q2. rewrite <- M2, map_length in Q2. lia.
Qed.

Lemma heard_voted window now n v others : forall who s, NoDup (who ++ others) -> In 0 who -> voted now n v who s ->
  voted now n v (who ++ others) (fold_left (Trigger_Model.step window) (heard now (S v) others) s).
Proof.
  induction others as [|x others IH]; intros who s ND I0 H; cbn [heard map fold_left].
  - rewrite app_nil_r. exact H.
  - replace (who ++ x :: others) with ((who ++ [x]) ++ others) in * by (rewrite <- app_assoc; reflexivity).
    apply IH; [exact ND|apply in_or_app; left; exact I0|].
    destruct H as (Hv & Hn & HC & Hq).
    cbn [Trigger_Model.step]. unfold Trigger_Model.process_instance_change; cbn [negb]. rewrite Hv.
    destruct (S v <=? v) eqn:L; [apply Nat.leb_le in L; lia|].
    assert (Nx : ~ In x who).
    { intros I. rewrite <- app_assoc in ND. cbn in ND. apply NoDup_remove_2 in ND. apply ND. apply in_or_app; left; exact I. }
    pose proof (add_voted window now n v x 11 s who Hv Hn Nx (or_intror HC)) as A.
    destruct A as (V2 & N2 & (d & G2 & M2 & F2) & Q2).
    unfold Trigger_Model.has_inst_chng_from. rewrite (update_fresh window now (S v) _ d G2 F2), G2.
    assert (Z0 : exists y, Trigger_Model.get 0 d = Some y).
    { destruct (Trigger_Model.get 0 d) as [y|] eqn:G0; [exists y; reflexivity|]. exfalso. apply Trigger_Props.get_none in G0. apply G0. rewrite M2. apply in_or_app; left; exact I0. }
    destruct Z0 as (y & ->). split; [exact V2|split; [exact N2|split; [exists d; auto|exact Q2]]].
Qed.

Lemma sent_voted window now n v why : voted now n v [0] (Trigger_Model.send_instance_change window now (S v) why (Trigger_Model.run window n [Trigger_Model.OView v])).
Proof.
  unfold Trigger_Model.send_instance_change. apply (add_voted window now n v 0 why _ []).
  - reflexivity. - reflexivity. - intros []. - left; split; reflexivity.
Qed.
