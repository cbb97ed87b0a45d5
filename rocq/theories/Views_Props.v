(** C66: batches that may have been ordered survive view changes. *)
From Coq Require Import List Arith Bool Lia.
From Verif Require Import Quorum_Model Quorum_Props NewView_Model NewView_Props Tpc_Model Tpc_Proofs Tpc_Proofs2 Tpc_Props
  Views_Model Views_Spec Views_Proofs Views_Check.
From Verif Require ViewChange_Model.
Import ListNotations.

(** The ViewChange message of a node is the one that [build] of ViewChange_Model.v makes from what
    the node remembers. *)
Theorem C66_message_is_built : forall S x v d p np nv,
  let st := last_state S x v in
  forall s : ViewChange_Model.state,
  ViewChange_Model.data s = ViewChange_Model.Shared (1 + v) true d p (r_low st) (s_cps (stays S x v)) (r_prepared st) (r_preprepared st) np ->
  ViewChange_Model.old_prepared s = ViewChange_Model.clear_old (r_low st) (fst (memory S x v)) ->
  ViewChange_Model.old_preprepared s = ViewChange_Model.clear_old (r_low st) (snd (memory S x v)) ->
  nv = ViewChange_Model.build s ->
  fst nv = view_change_of S x (1 + v) /\
  ViewChange_Model.old_prepared (snd nv) = fst (memory S x (1 + v)) /\
  ViewChange_Model.old_preprepared (snd nv) = snd (memory S x (1 + v)).
Proof.
  intros S x v d p np nv st s E1 E2 E3 ->. unfold ViewChange_Model.build, view_change_of. rewrite E1, E2, E3.
  cbn [fst snd ViewChange_Model.view ViewChange_Model.stable ViewChange_Model.prepared ViewChange_Model.preprepared ViewChange_Model.cps].
  replace (1 + v - 1) with v by lia. split; [reflexivity|]. split; reflexivity.
Qed.

(** Once a batch at place [t] has a quorum of Commits in a view, every correct node proposes, votes
    for and orders in all later views only this batch at this place, and every NewView it accepts
    lists the batch, unless its checkpoint covers the place.  All places up to [s] have such
    batches ([ordered]), as nodes order place by place.
    Missing from the full statement: it does not hold if a NewView does not list its highest batch
    last (C66_refuted) or if nodes take other PrePrepares for places of the NewView
    (C66_unchecked_refuted). *)
Theorem C66_survives_partial : forall S s (ordered : nat -> batch_id),
  sys_ok S -> only_listed S -> last_is_highest S ->
  (forall t, 1 <= t <= s -> pp_seq_no (ordered t) = t /\ committed S (ordered t)) ->
  (forall t t', 1 <= t <= t' -> t' <= s -> view_no (ordered t) <= view_no (ordered t')) ->
  forall x w t, correct S x -> view_no (ordered t) < w -> w < views S -> 1 <= t <= s ->
    (forall pp, handled (sent S x w) pp -> pp_seq pp = t -> is_batch pp (ordered t)) /\
    (forall p, In (OPrepare p) (sent S x w) -> p_seq p = t -> p_dig p = pp_digest (ordered t)) /\
    (forall a, s_new_view (stays S x w) = Some a -> cp_end (nv_cp a) < t ->
       exists b, In b (nv_batches a) /\ same_batch b (ordered t)).
Proof.
  intros S s ordered ok Li La Com Mono x w t Cx Lv Lw Ht.
  pose proof (survives_P S s ordered ok Li La Com Mono w t Ht Lv Lw x) as Pw.
  pose proof (stay_G S ok x w Cx Lw) as Gg.
  split; [|split].
  - intros pp Hd Es. apply Pw; auto. destruct Hd as [X|[(c & X)|X]].
    + right. right. exact X.
    + apply (g_comm _ _ _ _ _ Gg c pp X).
    + apply (g_ord _ _ _ _ _ Gg pp X).
  - intros p X Es. destruct (g_prep _ _ _ _ _ Gg p X) as (pp & Gi & ->). simpl in Es |- *.
    destruct (Pw pp Cx Gi Es) as (_ & B & _). exact B.
  - intros a Ea L. destruct (listed_in S s ordered ok Com Mono x w a t Cx Lw Ea Ht Lv L) as (b & B1 & _ & B2 & _).
    + intros t' u T U. apply (survives_P S s ordered ok Li La Com Mono); lia.
    + exists b. auto.
Qed.

(** Agreement across views: what a correct node orders in a view is what any correct node orders
    at the same place in a later view, if it was committed in that view together with what comes
    before it. *)
Theorem C66_agreement_partial : forall S (ordered : nat -> batch_id) pp1 x2 w pp2,
  sys_ok S -> only_listed S -> last_is_highest S ->
  (forall t, 1 <= t <= pp_seq pp1 -> pp_seq_no (ordered t) = t /\ committed S (ordered t)) ->
  (forall t t', 1 <= t <= t' -> t' <= pp_seq pp1 -> view_no (ordered t) <= view_no (ordered t')) ->
  1 <= pp_seq pp1 -> ordered (pp_seq pp1) = preprepare_to_batch_id pp1 ->
  correct S x2 -> pp_view pp1 < w -> w < views S -> In (OOrdered pp2) (sent S x2 w) -> pp_seq pp2 = pp_seq pp1 ->
  pp_dig pp2 = pp_dig pp1 /\ pp_orig_view pp2 = pp_orig_view pp1.
Proof.
  intros S ordered pp1 x2 w pp2 ok Li La Com Mono P1 Eo Cx Lv Lw X Es.
  destruct (C66_survives_partial S (pp_seq pp1) ordered ok Li La Com Mono x2 w (pp_seq pp1)) as (A & _); auto; try lia.
  { rewrite Eo. exact Lv. }
  destruct (A pp2) as (_ & B2 & B3); [right; right; exact X|exact Es|]. rewrite Eo in B2, B3. auto.
Qed.

(** The nodes of a system in one view, as a pool (C20) *)
Definition pool_at (S : system) (v : nat) (leader : node) (cert : nat) : pool :=
  Pool (all_nodes S) (faulty_nodes S) leader v cert (fun x => s_cfg (stays S x v))
    (fun x => s_start (stays S x v)) (fun x => s_events (stays S x v)).

(** A batch above those of the NewView, which a correct node orders and for which it sent its own
    Commit, is committed.  [Dg]: a digest belongs to one original view (it is a hash of the view,
    the time and the requests). *)
Theorem C66_ordered_is_committed_partial : forall S v leader cert x pp c b,
  pool_ok (pool_at S v leader cert) -> v < views S -> correct S x ->
  In (OOrdered pp) (sent S x v) -> cert < pp_seq pp ->
  In (OCommit c b) (sent S x v) -> c_view c = pp_view pp -> c_seq c = pp_seq pp ->
  (forall y c' pp', correct S y -> In (OCommit c' pp') (sent S y v) -> pp_dig pp' = pp_dig pp -> pp_orig_view pp' = pp_orig_view pp) ->
  committed S (preprepare_to_batch_id pp) /\ pp_view pp = v.
Proof.
  intros S v leader cert x pp c b ok Lv Cx O Cc C E1 E2 Dg. set (P := pool_at S v leader cert) in *.
  assert (Hx : honest P x) by exact Cx.
  destruct (origin_of P ok x Hx) as [A K].
  destruct (h_comm _ _ _ _ _ _ A c b C) as (T1 & T2 & _).
  assert (pp = b) as <-.
  { apply (k_same _ _ _ K pp c b O C); auto. rewrite <- T1. unfold pp_key, c_key. congruence. }
  assert (Ev : pp_view pp = v) by (rewrite <- E1; exact T2). split; [|exact Ev].
  destruct (h_ord _ _ _ _ _ _ A pp O) as (_ & names & Nd & Ln & Fn).
  destruct (po_start P ok x Hx) as (Mx & _ & Qx & _).
  split; [simpl; lia|]. exists names. split; [split; [exact Nd|]|split].
  - intros y Y. destruct (Fn y Y) as [[-> _]|(c' & Z & _)].
    + rewrite Mx. apply Hx.
    + exact (po_senders P ok x y Hx (or_intror (ex_intro _ c' Z))).
  - unfold has_quorum in Ln. rewrite Qx in Ln. exact Ln.
  - intros y Y Nf. simpl. rewrite Ev. destruct (Fn y Y) as [[-> Z]|(c' & Z & Z1 & _)].
    + rewrite Mx. eexists. exists pp. split; [exact Z|]. unfold is_batch. auto.
    + assert (Iy : In y (all_nodes S)) by exact (po_senders P ok x y Hx (or_intror (ex_intro _ c' Z))).
      assert (Hy : honest P y) by (split; [exact Iy|exact Nf]).
      destruct (po_commit P ok x y c' Hx Hy Z) as (d & pp' & D & D1 & D2 & _).
      destruct (origin_of P ok y Hy) as [Ay _]. destruct (h_comm _ _ _ _ _ _ Ay d pp' D) as (U1 & _).
      assert (Es : pp_seq pp = pp_seq pp').
      { injection U1 as _ U1. injection Z1 as _ Z1. congruence. }
      destruct (C20_commits_agree P ok x y c d pp pp' Hx Hy C D Es Cc) as (G1 & _).
      exists d, pp'. split; [exact D|]. unfold is_batch. simpl. split; [congruence|]. split; [congruence|].
      apply (Dg y d pp'); auto.
Qed.

(** ** Concrete pools: nodes 1 to 4, node [1 + v] is the primary of view [v] *)
Definition conf (x leader : node) : config := Config x leader (Quorums 4) (fun _ _ => None) 10 (Some 4).
Definition start1 : replica :=
  {| r_view := 0; r_low := 0; r_high := 10; r_waiting := false; r_participating := true;
     r_last_ordered := (0, 0); r_prev_cert := 0; r_sent := []; r_pps := []; r_prepares := []; r_commits := [];
     r_prep_wait := []; r_comm_wait := []; r_stashed := []; r_ordered := []; r_last_pp := 0;
     r_preprepared := []; r_prepared := [] |}.
Definition cp0 : cp_msg := Checkpoint 0 0 0 0 0.
Definition cert_of (nv : option accepted) : nat :=
  match nv with Some a => prev_view_prepare_cert (nv_cp a) (nv_batches a) | None => 0 end.
Fixpoint start_of (e : nat -> node -> list event) (nv : nat -> option accepted) (x : node) (v : nat) : replica :=
  match v with
  | 0 => start1
  | S u => enter_view v (cert_of (nv v)) (fst (run (conf x (1 + u)) (start_of e nv x u) (e u x)))
  end.
Definition three_views (faulty : list node) (e : nat -> node -> list event) (nv : nat -> option accepted) : system :=
  System [1; 2; 3; 4] faulty 10 3 (fun x v => Stay (conf x (1 + v)) (start_of e nv x v) (e v x) [cp0] (nv v)).

Definition b1 : pre_prepare := PrePrepare 0 1 5 1 0 10 20 30.
Definition b2 : pre_prepare := PrePrepare 0 2 6 2 0 12 22 32.
Definition vote (v : nat) (pp : pre_prepare) (x : node) : event := EPrepare (prepare_of (reissue v pp)) x.
Definition comm (v s : nat) (x : node) : event := ECommit (Commit v s None) x.
Definition old (v : nat) (pp : pre_prepare) : event := EOldPrePrepare (reissue v pp) all_ok.
Definition said (outs : list output) (o : output) : bool := yes (in_dec output_eq o outs).
Lemma said_in outs o : said outs o = true -> In o outs.
Proof. apply yes_true. Qed.

(** In view 0, node 1 proposes two batches.  All nodes send Commits for both; only node 1 gets
    enough Commits and orders both. *)
Definition view0 (x : node) : list event :=
  match x with
  | 1 => [ESend 5 1 10 20 30; ESend 6 2 12 22 32; vote 0 b1 2; vote 0 b1 3; vote 0 b2 2; vote 0 b2 3;
          comm 0 1 2; comm 0 1 3; comm 0 2 2; comm 0 2 3]
  | 2 => [EPrePrepare b1 1 all_ok; EPrePrepare b2 1 all_ok; vote 0 b1 3; vote 0 b2 3]
  | _ => [EPrePrepare b1 1 all_ok; EPrePrepare b2 1 all_ok; vote 0 b1 2; vote 0 b2 2]
  end.
Definition id1 := preprepare_to_batch_id b1.
Definition id2 := preprepare_to_batch_id b2.
Definition vc_view1 : view_change_msg := ViewChange 1 0 [id1; id2] [id1; id2] [cp0].
Definition nv1 : accepted := Accepted cp0 [id1; id2] [(1, vc_view1); (2, vc_view1); (3, vc_view1)].

(** *** A good run: node 4 is faulty and lies in its ViewChange message for view 2 *)
Definition b3 : pre_prepare := PrePrepare 2 3 9 3 2 14 24 34.
Definition good_events (v : nat) (x : node) : list event :=
  match v, x with
  | 0, _ => view0 x
  | 1, 1 => [old 0 b1; old 0 b2; vote 1 b1 3; vote 1 b2 3]
  | 1, 2 => [old 0 b1; old 0 b2; vote 1 b1 1; vote 1 b1 3; vote 1 b2 3; vote 1 b2 1]
  | 1, _ => [old 0 b1; old 0 b2; vote 1 b1 1; vote 1 b2 1]
  | _, 1 => [old 1 b1; old 1 b2; vote 2 b1 2; vote 2 b2 2]
  | _, 2 => [old 1 b1; old 1 b2; vote 2 b1 1; vote 2 b2 1; comm 2 1 1; comm 2 1 3; comm 2 2 1; comm 2 2 3]
  | _, _ => [old 1 b1; old 1 b2; vote 2 b1 1; vote 2 b1 2; vote 2 b2 1; vote 2 b2 2;
             comm 2 1 1; comm 2 1 2; comm 2 2 1; comm 2 2 2; ESend 9 3 14 24 34]
  end.
Definition id1' := BatchID 1 0 1 1.
Definition id2' := BatchID 1 0 2 2.
Definition vc_view2 : view_change_msg := ViewChange 2 0 [id1'; id2'] [id1'; id2'] [cp0].
Definition vc_lie : view_change_msg := ViewChange 2 0 [BatchID 1 1 1 99; BatchID 1 1 2 98] [BatchID 1 1 1 99] [cp0].
Definition good_nv2 : accepted := Accepted cp0 [id1'; id2'] [(4, vc_lie); (1, vc_view2); (2, vc_view2); (3, vc_view2)].
Definition good_system : system := three_views [4] good_events
  (fun v => match v with 0 => None | 1 => Some nv1 | _ => Some good_nv2 end).

Definition both (t : nat) : batch_id := match t with 1 => id1 | _ => id2 end.
Example C66_ex : sys_ok good_system /\ genuine good_system /\ only_listed good_system /\ last_is_highest good_system /\
  (forall t, 1 <= t <= 2 -> pp_seq_no (both t) = t /\ committed good_system (both t)) /\
  In (OOrdered b2) (sent good_system 1 0) /\ In (OOrdered (reissue 2 b2)) (sent good_system 3 2) /\
  In (OPrePrepare b3) (sent good_system 3 2).
Proof.
  split; [apply sys_okb_ok; [reflexivity|vm_compute; reflexivity]|].
  split; [apply genuineb_ok; vm_compute; reflexivity|].
  split; [apply only_listedb_ok; vm_compute; reflexivity|].
  split; [apply last_is_highestb_ok; vm_compute; reflexivity|].
  split.
  { intros t T. assert (t = 1 \/ t = 2) as [-> | ->] by lia; (split; [reflexivity|]);
      apply (committedb_ok good_system _ [1; 2; 3]); vm_compute; reflexivity. }
  split; [apply said_in; vm_compute; reflexivity|]. split; apply said_in; vm_compute; reflexivity.
Qed.

Example C66_message_is_built_ex : let S := good_system in
  let s := ViewChange_Model.set_data (ViewChange_Model.Shared 1 true None 4 0 [cp0] [id1; id2] [id1; id2] None) (ViewChange_Model.init 1 4 2) in
  ViewChange_Model.data s = ViewChange_Model.Shared (1 + 0) true None 4 (r_low (last_state S 1 0)) (s_cps (stays S 1 0))
    (r_prepared (last_state S 1 0)) (r_preprepared (last_state S 1 0)) None /\
  ViewChange_Model.old_prepared s = ViewChange_Model.clear_old (r_low (last_state S 1 0)) (fst (memory S 1 0)) /\
  view_change_of S 1 1 = vc_view1.
Proof. vm_compute. auto. Qed.

(** The pool of C20_ex as a system of one view *)
Definition one_view : system := System [0; 1; 2; 3] [3] 10 1
  (fun x _ => Stay (with_bls x) start0 (evs good_pool x) [] None).
Example C66_ordered_is_committed_ex : pool_ok (pool_at one_view 0 0 0) /\ correct one_view 1 /\
  In (OOrdered batch1) (sent one_view 1 0) /\ In (OCommit signed1 batch1) (sent one_view 1 0) /\
  (forall y c' pp', correct one_view y -> In (OCommit c' pp') (sent one_view y 0) -> pp_orig_view pp' = pp_orig_view batch1) /\
  committed one_view (preprepare_to_batch_id batch1).
Proof.
  assert (ok : pool_ok (pool_at one_view 0 0 0)) by exact good_pool_ok.
  assert (Cx : correct one_view 1) by (split; [right; left; reflexivity|simpl; intros [E|[]]; discriminate E]).
  assert (Ho : In (OOrdered batch1) (sent one_view 1 0)) by (vm_compute; pick).
  assert (Hc : In (OCommit signed1 batch1) (sent one_view 1 0)) by (vm_compute; pick).
  assert (Hd : forall y c' pp', correct one_view y -> In (OCommit c' pp') (sent one_view y 0) -> pp_orig_view pp' = pp_orig_view batch1).
  { intros y c' pp' Hy X. each_node Hy; vm_compute in X; each_in X; injection X; intros; subst; reflexivity. }
  refine (conj ok (conj Cx (conj Ho (conj Hc (conj Hd _))))).
  eapply (C66_ordered_is_committed_partial one_view 0 0 0 1 batch1 signed1 batch1); eauto.
Qed.

(** *** All nodes are correct, and two of them order different batches at the same place.
    In view 1 the nodes 2, 3, 4 prepare the first batch again, but not the second.  Their
    ViewChange messages for view 2 name the first batch with view 1 and the second with view 0, so
    the NewView lists the second batch before the first (C22_ascending_refuted).  When the
    primary of view 2 handles this list, the second batch comes too early and is put aside; after
    the first it believes that all batches of the NewView are there, and proposes a new batch for
    the second place.  The nodes 2, 3, 4 order it; node 1 has ordered the other one in view 0. *)
Definition b77 : pre_prepare := PrePrepare 2 2 9 77 2 13 23 33.
Definition fork_events (v : nat) (x : node) : list event :=
  match v, x with
  | 0, _ => view0 x
  | 1, 1 => [old 0 b1; old 0 b2]
  | 1, 2 => [old 0 b1; old 0 b2; vote 1 b1 3; vote 1 b1 4]
  | 1, 3 => [old 0 b1; old 0 b2; vote 1 b1 4]
  | 1, _ => [old 0 b1; old 0 b2; vote 1 b1 3]
  | _, 1 => [old 1 b2; old 1 b1]
  | _, 2 => [old 1 b2; old 1 b1; EPrePrepare b77 3 all_ok; vote 2 b1 4; vote 2 b77 4;
             comm 2 1 3; comm 2 1 4; comm 2 2 3; comm 2 2 4]
  | _, 3 => [old 1 b2; old 1 b1; ESend 9 77 13 23 33; vote 2 b1 2; vote 2 b1 4; vote 2 b77 2; vote 2 b77 4;
             comm 2 1 2; comm 2 1 4; comm 2 2 2; comm 2 2 4]
  | _, _ => [old 1 b2; old 1 b1; EPrePrepare b77 3 all_ok; vote 2 b1 2; vote 2 b77 2;
             comm 2 1 2; comm 2 1 3; comm 2 2 2; comm 2 2 3]
  end.
Definition vc_fork : view_change_msg := ViewChange 2 0 [id2; id1'] [id1'; id2'] [cp0].
Definition fork_nv2 : accepted := Accepted cp0 [id2; id1'] [(2, vc_fork); (3, vc_fork); (4, vc_fork)].
Definition fork_system : system := three_views [] fork_events
  (fun v => match v with 0 => None | 1 => Some nv1 | _ => Some fork_nv2 end).

Theorem C66_refuted : exists S x1 x2 v1 v2 pp1 pp2,
  sys_ok S /\ genuine S /\ faulty_nodes S = [] /\ only_listed S /\ correct S x1 /\ correct S x2 /\
  committed S (preprepare_to_batch_id pp1) /\
  In (OOrdered pp1) (sent S x1 v1) /\ In (OOrdered pp2) (sent S x2 v2) /\
  pp_seq pp1 = pp_seq pp2 /\ pp_dig pp1 <> pp_dig pp2.
Proof.
  exists fork_system, 1, 3, 0, 2, b2, b77.
  split; [apply sys_okb_ok; [reflexivity|vm_compute; reflexivity]|].
  split; [apply genuineb_ok; vm_compute; reflexivity|].
  split; [reflexivity|].
  split; [apply only_listedb_ok; vm_compute; reflexivity|].
  split; [split; [left; reflexivity|intros []]|]. split; [split; [right; right; left; reflexivity|intros []]|].
  split; [apply (committedb_ok fork_system _ [1; 2; 3]); vm_compute; reflexivity|].
  split; [apply said_in; vm_compute; reflexivity|]. split; [apply said_in; vm_compute; reflexivity|].
  split; [reflexivity|discriminate].
Qed.

(** *** One faulty node, number 4, makes correct nodes order different batches although every
    NewView lists its batches in order.  In view 0 the nodes 1 and 2 order batch [b1].  In view 1
    node 4, which is not the primary, sends them a PrePrepare of its own for that place: for a
    place that it has ordered a replica checks nothing and puts the batch among its pre-prepared
    ones.  In view 2 node 4 claims to have it prepared; the ViewChange messages of 1, 2 and 4 are
    enough to choose it, and node 3, which ordered nothing before, orders it. *)
Definition bad : pre_prepare := PrePrepare 1 1 7 99 1 15 25 35.
Definition attack_events (v : nat) (x : node) : list event :=
  match v, x with
  | 0, 1 => [ESend 5 1 10 20 30; vote 0 b1 2; vote 0 b1 3; comm 0 1 2; comm 0 1 4]
  | 0, 2 => [EPrePrepare b1 1 all_ok; vote 0 b1 3; comm 0 1 1; comm 0 1 4]
  | 0, _ => [EPrePrepare b1 1 all_ok]
  | 1, 1 | 1, 2 => [old 0 b1; EPrePrepare bad 4 all_ok]
  | 1, _ => [old 0 b1]
  | _, 1 => [old 1 bad; vote 2 bad 2]
  | _, 2 => [old 1 bad; vote 2 bad 1]
  | _, _ => [old 1 bad; vote 2 bad 1; vote 2 bad 2; comm 2 1 1; comm 2 1 2]
  end.
Definition vc_a1 : view_change_msg := ViewChange 1 0 [id1] [id1] [cp0].
Definition vc_a3 : view_change_msg := ViewChange 1 0 [] [id1] [cp0].
Definition vc_a2 : view_change_msg := ViewChange 2 0 [id1] [id1'; BatchID 1 1 1 99] [cp0].
Definition vc_a4 : view_change_msg := ViewChange 2 0 [BatchID 1 1 1 99] [BatchID 1 1 1 99] [cp0].
Definition attack_nv1 : accepted := Accepted cp0 [id1] [(1, vc_a1); (2, vc_a1); (3, vc_a3)].
Definition attack_nv2 : accepted := Accepted cp0 [BatchID 1 1 1 99] [(4, vc_a4); (1, vc_a2); (2, vc_a2)].
Definition attack_system : system := three_views [4] attack_events
  (fun v => match v with 0 => None | 1 => Some attack_nv1 | _ => Some attack_nv2 end).

Theorem C66_unchecked_refuted : exists S x1 x2 v1 v2 pp1 pp2,
  sys_ok S /\ genuine S /\ last_is_highest S /\ correct S x1 /\ correct S x2 /\
  committed S (preprepare_to_batch_id pp1) /\
  In (OOrdered pp1) (sent S x1 v1) /\ In (OOrdered pp2) (sent S x2 v2) /\
  pp_seq pp1 = pp_seq pp2 /\ pp_dig pp1 <> pp_dig pp2.
Proof.
  exists attack_system, 1, 3, 0, 2, b1, (reissue 2 bad).
  split; [apply sys_okb_ok; [reflexivity|vm_compute; reflexivity]|].
  split; [apply genuineb_ok; vm_compute; reflexivity|].
  split; [apply last_is_highestb_ok; vm_compute; reflexivity|].
  split; [split; [left; reflexivity|simpl; intros [E|[]]; discriminate E]|].
  split; [split; [right; right; left; reflexivity|simpl; intros [E|[]]; discriminate E]|].
  split; [apply (committedb_ok attack_system _ [1; 2; 4]); vm_compute; reflexivity|].
  split; [apply said_in; vm_compute; reflexivity|]. split; [apply said_in; vm_compute; reflexivity|].
  split; [reflexivity|discriminate].
Qed.

Print Assumptions C66_message_is_built.
Print Assumptions C66_survives_partial.
Print Assumptions C66_agreement_partial.
Print Assumptions C66_ordered_is_committed_partial.
Print Assumptions C66_refuted.
Print Assumptions C66_unchecked_refuted.
