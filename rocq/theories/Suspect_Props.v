(** C100: what a node votes against the primary for. *)
From Coq Require Import List Arith ZArith Bool Lia.
From Verif Require Import Quorum_Model Validator_Model Suspect_Model Suspect_Spec Suspect_Proofs.
From Verif Require Trigger_Model.
Import ListNotations.

(** Exactly the messages a node votes after: PrePrepares for the master which are taken up, with a
    wrong digest whoever sends them, or else from the primary and to blame. *)
Theorem C100_exact : forall digest r p f sender,
  votes digest r (MPrePrepare p f) sender <> [] <->
  at_hand r p /\ (~ right_digest digest p \/ (right_digest digest p /\ is_primary r sender /\ to_blame f)).
Proof. exact exact. Qed.
(** Nobody but the primary causes a vote with messages whose digest is right.  Partial: with a wrong
    digest anybody does ([C100_digest_refuted]). *)
Theorem C100_others_partial : forall digest window now r m sender s,
  ~ is_primary r sender -> (forall p f, m = MPrePrepare p f -> right_digest digest p) ->
  on_message digest window now r m sender s = s.
Proof.
  intros digest window now r m sender s P D. unfold on_message.
  destruct (votes digest r m sender) as [|c l] eqn:V; [reflexivity|]. exfalso.
  destruct m as [p f|i v q f|i v q f]; [|rewrite no_vote_prepare in V; discriminate|rewrite no_vote_commit in V; discriminate].
  assert (N : votes digest r (MPrePrepare p f) sender <> []) by (rewrite V; discriminate).
  apply exact in N as [_ [N|(_ & N & _)]]; [exact (N (D p f eq_refl))|exact (P N)].
Qed.
(** Prepares and Commits cause no vote, whatever is wrong with them and whoever sends them. *)
Theorem C100_prepares_commits : forall digest window now r m sender s,
  (forall p f, m <> MPrePrepare p f) -> on_message digest window now r m sender s = s.
Proof.
  intros digest window now r m sender s H. unfold on_message.
  destruct m as [p f|i v q f|i v q f]; [exfalso; exact (H p f eq_refl)|rewrite no_vote_prepare; reflexivity|rewrite no_vote_commit; reflexivity].
Qed.
(** Neither does anything in a backup instance. *)
Theorem C100_backup : forall digest window now r m sender s,
  d_is_master (r_data r) = false -> on_message digest window now r m sender s = s.
Proof. intros digest window now r m sender s H. unfold on_message, votes. rewrite H. reflexivity. Qed.
(** A primary that keeps to the rules is not voted against because of what it sends. *)
Theorem C100_correct_primary : forall digest window now r p f sender s,
  right_digest digest p -> f_time_ok f = true -> (f_unfinalised f = true -> f_ordered f = false) ->
  (in_turn f -> f_multisig f = true /\ f_applied f = None) ->
  on_message digest window now r (MPrePrepare p f) sender s = s.
Proof.
  intros digest window now r p f sender s D T O B. unfold on_message.
  destruct (votes digest r (MPrePrepare p f) sender) as [|c l] eqn:V; [reflexivity|]. exfalso.
  assert (N : votes digest r (MPrePrepare p f) sender <> []) by (rewrite V; discriminate).
  apply exact in N as [_ [N|(_ & _ & _ & [N|[(_ & N1 & N2)|[N1 N2]]])]].
  - exact (N D).
  - congruence.
  - rewrite (O N1) in N2; discriminate.
  - destruct (B N1) as [M A]. destruct N2 as [N2|(w & N2 & _)]; congruence.
Qed.
(** A primary that is to blame is voted against: an InstanceChange for the next view goes out, once. *)
Theorem C100_bad_primary : forall digest window now r p f sender s,
  at_hand r p -> right_digest digest p -> is_primary r sender -> to_blame f ->
  exists l, Trigger_Model.log (on_message digest window now r (MPrePrepare p f) sender s) =
            Trigger_Model.log s ++ Trigger_Model.LSend (S (Trigger_Model.view_no s)) :: l /\
            forall v, ~ In (Trigger_Model.LSend v) l.
Proof.
  intros digest window now r p f sender s A D P B.
  destruct (on_message_vote digest window now r (MPrePrepare p f) sender s) as (c & _ & E).
  { apply exact. split; [exact A|right; auto]. }
  rewrite E, Nat.add_1_r. apply send_log.
Qed.

(** REFUTED: "only the primary is voted against": the digest is compared before the sender is looked
    at, so a PrePrepare with a wrong digest from any node makes every node that takes it up vote. *)
Theorem C100_digest_refuted : forall digest window now r p f sender s,
  at_hand r p -> ~ right_digest digest p ->
  exists l, Trigger_Model.log (on_message digest window now r (MPrePrepare p f) sender s) =
            Trigger_Model.log s ++ Trigger_Model.LSend (S (Trigger_Model.view_no s)) :: l.
Proof.
  intros digest window now r p f sender s A D.
  destruct (on_message_vote digest window now r (MPrePrepare p f) sender s) as (c & _ & E).
  { apply exact. split; [exact A|left; exact D]. }
  rewrite E, Nat.add_1_r. destruct (send_log window now (S (Trigger_Model.view_no s)) (Z.of_nat c) s) as (l & H & _).
  exists l. exact H.
Qed.
(** REFUTED: "one faulty node that is not the primary cannot bring about a view change": in a pool of
    any size from four, in any view, the message makes a node ask for the next view, and it starts
    when the nodes but the faulty one, all of which got the same message, have said so too. *)
Theorem C100_attack_refuted : forall digest window now n v r p f bad others,
  4 <= n -> length others = n - 2 -> NoDup others -> ~ In 0 others -> ~ In bad others ->
  at_hand r p -> ~ right_digest digest p -> ~ is_primary r bad ->
  let s := fold_left (Trigger_Model.step window) (heard now (S v) others)
             (on_message digest window now r (MPrePrepare p f) bad (Trigger_Model.run window n [Trigger_Model.OView v])) in
  In (Trigger_Model.LStart (S v) now) (Trigger_Model.log s).
Proof.
  intros digest window now n v r p f bad others Hn L ND N0 _ A D _.
  destruct (on_message_vote digest window now r (MPrePrepare p f) bad (Trigger_Model.run window n [Trigger_Model.OView v])) as (c & _ & E).
  { apply exact. split; [exact A|left; exact D]. }
  cbv zeta. rewrite E. change (Trigger_Model.view_no (Trigger_Model.run window n [Trigger_Model.OView v])) with v. rewrite Nat.add_1_r.
  assert (N : NoDup ([0] ++ others)) by (cbn; constructor; [exact N0|exact ND]).
  destruct (heard_voted window now n v others [0] _ N (or_introl eq_refl) (sent_voted window now n v (Z.of_nat c))) as (_ & _ & _ & Q).
  apply Q. cbn [app length]. rewrite L. unfold getMaxFailures. rewrite (proj2 (Nat.leb_le 4 n) Hn).
    assert (1 <= (n - 1) / 3) by (apply Nat.div_le_lower_bound; lia). lia.
Qed.
(** REFUTED: "a primary caught with a wrong PrePrepare is voted against": not if it is the pool state
    root or the list of primaries that is wrong: the suspicion is reported, and that is all. *)
Theorem C100_silent_refuted : forall digest window now r p f sender s,
  at_hand r p -> right_digest digest p -> is_primary r sender ->
  f_known f = false -> f_time_ok f = true -> f_old f = false -> f_unfinalised f = false -> f_next f = true ->
  f_pool_root f = false \/ (f_pool_root f = true /\ f_multisig f = true /\ f_applied f = Some WRONG_PRIMARIES) ->
  suspicions digest r (MPrePrepare p f) sender <> [] /\ on_message digest window now r (MPrePrepare p f) sender s = s.
Proof.
  intros digest window now r p f sender s (M & V & O) D P K T Ol U Nx B.
  assert (E : suspicions digest r (MPrePrepare p f) sender = check_pre_prepare digest r p f sender) by (cbn [suspicions]; rewrite V; reflexivity).
  assert (C : check_pre_prepare digest r p f sender = [PPR_POOL_STATE_ROOT_HASH_WRONG] \/ check_pre_prepare digest r p f sender = [PPR_WITH_WRONG_PRIMARIES]).
  { unfold check_pre_prepare, has_already_ordered, le_3pc; cbn [snd]. apply Nat.leb_gt in O. rewrite O, <- D, Nat.eqb_refl; cbn [negb].
    rewrite (process_view _ _ _ _ V). rewrite (proj2 (from_primary_now r sender) P); cbn [negb].
    rewrite K, T, Ol, U, Nx; cbn [negb]. destruct B as [->|(-> & -> & ->)]; cbn [negb]; auto. }
  unfold on_message, votes. rewrite M, E. destruct C as [-> | ->]; (split; [discriminate|reflexivity]).
Qed.

(** ** The hypotheses are met *)
Definition ex_digest (reqs : list nat) (view time : nat) : nat := fold_left (fun a x => 3 * a + x) reqs (view + time).
Definition ex_data := VData 0 true 2 false true 0 30 (1, 4) 4.
Definition ex_replica := Replica ex_data (Some 3) [(1, 2)].
Definition ex_facts := Facts false true false false false true true true None.
Definition ex_pp := PP 0 2 5 2 7 [1; 2] 86.
Definition ex_bad := PP 0 2 5 2 7 [1; 2] 85.
Example at_hand_ex : at_hand ex_replica ex_pp. Proof. split; [reflexivity|split; [reflexivity|cbn; lia]]. Qed.
Example at_hand_bad : at_hand ex_replica ex_bad. Proof. split; [reflexivity|split; [reflexivity|cbn; lia]]. Qed.
Example digest_ex : right_digest ex_digest ex_pp. Proof. reflexivity. Qed.
Example digest_bad : ~ right_digest ex_digest ex_bad. Proof. discriminate. Qed.
Example primary_ex : is_primary ex_replica 3. Proof. reflexivity. Qed.
Example other_ex : ~ is_primary ex_replica 1. Proof. discriminate. Qed.
Example blame_time : to_blame (Facts false false false false false true true true None).
Proof. split; [reflexivity|left; reflexivity]. Qed.
Example blame_root : to_blame (Facts false true false false false true true true (Some WRONG_STATE)).
Proof. split; [reflexivity|right; right; split; [repeat split|]]. right; exists WRONG_STATE; repeat split; discriminate. Qed.
Example ex_in_turn : in_turn ex_facts. Proof. repeat split. Qed.
Example no_vote_good : votes ex_digest ex_replica (MPrePrepare ex_pp ex_facts) 3 = []. Proof. reflexivity. Qed.
Example no_vote_other : suspicions ex_digest ex_replica (MPrePrepare ex_pp ex_facts) 1 = [9] /\ votes ex_digest ex_replica (MPrePrepare ex_pp ex_facts) 1 = [].
Proof. split; reflexivity. Qed.
Example vote_other : votes ex_digest ex_replica (MPrePrepare ex_bad ex_facts) 1 = [11]. Proof. reflexivity. Qed.
Example prepare_suspected : suspicions ex_digest ex_replica (MPrepare 0 2 5 (PFacts (Some false) false true true false true true)) 1 = [23].
Proof. reflexivity. Qed.
Example commit_suspected : suspicions ex_digest ex_replica (MCommit 0 2 5 (CFacts true false false)) 1 = [31]. Proof. reflexivity. Qed.
(** four nodes, 0 is this one, 3 the primary, 1 the faulty one *)
Example attack_ex : Trigger_Model.log
  (fold_left (Trigger_Model.step 300) (heard 50 3 [2; 3]) (on_message ex_digest 300 50 ex_replica (MPrePrepare ex_bad ex_facts) 1 (Trigger_Model.run 300 4 [Trigger_Model.OView 2])))
  = [Trigger_Model.LView 2; Trigger_Model.LSend 3; Trigger_Model.LVote 3 0 50; Trigger_Model.LVote 3 2 50; Trigger_Model.LVote 3 3 50; Trigger_Model.LStart 3 50].
Proof. vm_compute. reflexivity. Qed.

Print Assumptions C100_exact.
Print Assumptions C100_others_partial.
Print Assumptions C100_prepares_commits.
Print Assumptions C100_backup.
Print Assumptions C100_correct_primary.
Print Assumptions C100_bad_primary.
Print Assumptions C100_digest_refuted.
Print Assumptions C100_attack_refuted.
Print Assumptions C100_silent_refuted.
