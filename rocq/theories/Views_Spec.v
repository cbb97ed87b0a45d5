(** What is assumed of a pool over several views, and what a committed batch is. *)
From Coq Require Import List Arith Bool Lia.
From Verif Require Import Quorum_Model Quorum_Props NewView_Model NewView_Props Tpc_Model Tpc_Proofs Tpc_Proofs2 Tpc_Props Views_Model.
Import ListNotations.

Definition correct (S : system) (x : node) : Prop := In x (all_nodes S) /\ ~ In x (faulty_nodes S).

(** the PrePrepare is for this batch: same place, digest and original view *)
Definition is_batch (pp : pre_prepare) (b : batch_id) : Prop :=
  pp_seq pp = pp_seq_no b /\ pp_dig pp = pp_digest b /\ pp_orig_view pp = pp_view_no b.

(** Nodes in successive views.  At most f nodes are faulty.  Of a correct node:
    - it starts a view without messages of that view, with [log] places above its stable
      checkpoint, which does not go back between views;
    - it orders nothing in a view for which it has no NewView (except in the first view);
    - a NewView it accepted names messages of distinct nodes, those of correct nodes are the
      ones these built, and passed its checks;
    - it processes PrePrepares of earlier views only for the batches of the NewView. *)
Record sys_ok (S : system) : Prop := {
  so_nodes : NoDup (all_nodes S) /\ 1 <= length (all_nodes S);
  so_faulty : length (faulty_nodes S) <= getMaxFailures (length (all_nodes S));
  so_start : forall x v, correct S x -> v < views S ->
    let s := stays S x v in
    me (s_cfg s) = x /\ q (s_cfg s) = Quorums (length (all_nodes S)) /\ log_size (s_cfg s) = log S /\
    view_start (s_start s) /\ r_view (s_start s) = v /\ r_prepared (s_start s) = [] /\
    r_preprepared (s_start s) = [] /\ r_high (s_start s) = r_low (s_start s) + log S /\
    well_formed (s_cfg s) (s_start s) (s_events s);
  so_low : forall x v, correct S x -> 1 + v < views S ->
    r_low (last_state S x v) <= r_low (s_start (stays S x (1 + v)));
  so_none : forall x v, correct S x -> v < views S -> 0 < v -> s_new_view (stays S x v) = None ->
    s_events (stays S x v) = [];
  so_new_view : forall x v a, correct S x -> v < views S -> s_new_view (stays S x v) = Some a ->
    0 < v /\ NoDup (map fst (nv_vcs a)) /\ incl (map fst (nv_vcs a)) (all_nodes S) /\
    (forall y vc, In (y, vc) (nv_vcs a) -> correct S y -> vc = view_change_of S y v) /\
    new_view_valid (Quorums (length (all_nodes S))) (log S) (map snd (nv_vcs a)) (nv_cp a) (nv_batches a) = true /\
    r_prev_cert (s_start (stays S x v)) = prev_view_prepare_cert (nv_cp a) (nv_batches a);
  so_old : forall x v pp ck, correct S x -> v < views S -> In (EOldPrePrepare pp ck) (s_events (stays S x v)) ->
    exists a b, s_new_view (stays S x v) = Some a /\ In b (nv_batches a) /\ is_batch pp b }.

(** What correct nodes hear from each other in a view was sent in it. *)
Record genuine (S : system) : Prop := {
  ge_pp : forall x y v pp ck, correct S x -> correct S y -> v < views S ->
    In (EPrePrepare pp y ck) (s_events (stays S x v)) -> In (OPrePrepare pp) (sent S y v);
  ge_prepare : forall x y v p, correct S x -> correct S y -> v < views S ->
    In (EPrepare p y) (s_events (stays S x v)) -> In (OPrepare p) (sent S y v);
  ge_commit : forall x y v c, correct S x -> correct S y -> v < views S ->
    In (ECommit c y) (s_events (stays S x v)) -> exists pp, In (OCommit c pp) (sent S y v) }.

(** No correct node receives, for a place which the NewView covers, a PrePrepare of another batch
    than the one the NewView lists.  The code does not see to it (C66_unchecked_refuted). *)
Definition only_listed (S : system) : Prop := forall x v a pp y ck, correct S x -> v < views S ->
  s_new_view (stays S x v) = Some a -> In (EPrePrepare pp y ck) (s_events (stays S x v)) ->
  pp_seq pp <= prev_view_prepare_cert (nv_cp a) (nv_batches a) -> exists b, In b (nv_batches a) /\ is_batch pp b.

(** The batch that a NewView lists last has the highest place.  The code does not see to it
    (C22_ascending_refuted, C66_refuted). *)
Definition last_is_highest (S : system) : Prop := forall x v a b, correct S x -> v < views S ->
  s_new_view (stays S x v) = Some a -> In b (nv_batches a) ->
  pp_seq_no b <= prev_view_prepare_cert (nv_cp a) (nv_batches a).

(** Batch [b] has a quorum of Commits in view [view_no b]: the correct ones among these nodes sent
    a Commit for it. *)
Definition committed (S : system) (b : batch_id) : Prop := view_no b < views S /\
  exists cs, members (all_nodes S) cs /\ commit (Quorums (length (all_nodes S))) <= length cs /\
    forall x, In x cs -> ~ In x (faulty_nodes S) ->
      exists c pp, In (OCommit c pp) (sent S x (view_no b)) /\ is_batch pp b.

(** [pp] is proposed, voted for with a Commit, or ordered *)
Definition handled (outs : list output) (pp : pre_prepare) : Prop :=
  In (OPrePrepare pp) outs \/ (exists c, In (OCommit c pp) outs) \/ In (OOrdered pp) outs.
