(** C74: which backup instances a node runs. *)
From Coq Require Import List Arith Bool Lia.
From Verif Require Import Base Dict Backup_Model Backup_Spec Backup_Proofs.
Import ListNotations.

(** a pool of 7 nodes: f = 2, three instances; the node itself is 9 *)
Definition dflt : config := Config 9 Quorum Local 5.
Definition s7 : node := start 2 0 1.
Definition against (i frm : nat) : event := EMsg (Msg 1 [i] 40) frm.

(** the master instance always runs *)
Theorem C74_master f t v c es : Forall sane es -> In 0 (running (run c (start f t v) es)).
Proof. intros H. apply has_in. apply (good_run c _ es H (good_start f t v)). Qed.
Example C74_master_ex : running (run dflt s7 [against 1 1; EMsg (Msg 1 [0; 2] 40) 1; EMsg (Msg 1 [0; 2] 40) 2; EMsg (Msg 1 [0; 2] 40) 3;
  against 1 2; EDisc 0 4; EDisc 2 4; against 1 3; EFire 0 20 false; EAdjust 0 21]) = [0; 2].
Proof. vm_compute. reflexivity. Qed.

(** since the replicas were last restored: an instance runs as long as neither f + 1 different nodes voted
    against it, nor the node itself f + 1 times, nor the node dropped it on its own *)
Theorem C74_quorum c i s es : votes s = [] -> In i (running s) -> Forall plain es ->
  (In i (running (run c s es)) <->
   ~ enough c (flt s) (all_voters c i s es) /\ ~ Exists (drops c i) (trace c s es)).
Proof. apply quorum_iff. Qed.
Example C74_quorum_ex : votes s7 = [] /\ running s7 = [0; 1; 2] /\
  let two := [against 1 1; against 1 1; against 2 3; against 1 2; EMsg (Msg 0 [1] 40) 4; EMsg (Msg 1 [1] 39) 5; EDegraded [1] false] in
  all_voters dflt 1 s7 two = [1; 1; 2; 9] /\ running (run dflt s7 two) = [0; 2] /\
  running (run dflt s7 (firstn 6 two)) = [0; 1; 2] /\
  running (run dflt s7 [EDegraded [2] false; EDegraded [2] false]) = [0; 1; 2] /\
  running (run dflt s7 [EDegraded [2] false; EDegraded [2] false; EDegraded [2] false]) = [0; 1].
Proof. vm_compute. repeat split; reflexivity. Qed.

(** whatever else happened since they were last restored (also to the pool): an instance that was there
    before an event and is not there after it had enough votes against it, or was dropped by the node *)
Theorem C74_removed c i s es e : votes s = [] -> Forall no_restore es -> plain e ->
  In i (running (run c s es)) -> ~ In i (running (run c s (es ++ [e]))) ->
  enough c (flt (run c s es)) (all_voters c i s (es ++ [e])) \/ drops c i (run c s es, e).
Proof. apply removed_sound. Qed.
Example C74_removed_ex :
  let es := [against 1 1; EAdjust 1 3; EDisc 1 4] in
  running (run dflt s7 es) = [0; 1] /\ running (run dflt s7 (es ++ [against 1 2])) = [0] /\
  all_voters dflt 1 s7 (es ++ [against 1 2]) = [1; 2] /\ flt (run dflt s7 es) = 1.
Proof. vm_compute. repeat split; reflexivity. Qed.

(** so f faulty nodes cannot stop an instance that the node itself does not complain about *)
Theorem C74_few c i s es B : votes s = [] -> In i (running s) -> Forall plain es ->
  length B <= flt s -> incl (all_voters c i s es) B -> ~ In (me c) (all_voters c i s es) ->
  ~ Exists (drops c i) (trace c s es) -> In i (running (run c s es)).
Proof.
  intros Hv Hi Hp HB HL Hm Hd. apply C74_quorum; [exact Hv|exact Hi|exact Hp|]. split; [|exact Hd].
  apply (few_not_enough c (flt s) B); assumption.
Qed.
Example C74_few_ex : all_voters dflt 1 s7 [against 1 1; against 1 2; against 1 1; against 1 2; against 1 1] = [1; 2; 1; 2; 1] /\
  running (run dflt s7 [against 1 1; against 1 2; against 1 1; against 1 2; against 1 1]) = [0; 1; 2].
Proof. vm_compute. split; reflexivity. Qed.

(** the node tells the others exactly what it found itself, when a quorum is to decide *)
Theorem C74_told c s e : sent (step c s e) = tells c s e ++ sent s.
Proof. apply step_sent. Qed.
Example C74_told_ex : sent (run dflt s7 [against 1 1; EDegraded [1; 2] false; EDegraded [] false; EDisc 1 2; EFire 1 9 false]) = [Msg 1 [1; 2] 40] /\
  sent (run (Config 9 Local Quorum 5) s7 [EDegraded [2] false; EDisc 1 2; EFire 1 9 false]) = [Msg 1 [1] 39] /\
  running (run (Config 9 Local Quorum 5) s7 [EDegraded [2] false; EDisc 1 2; EFire 1 9 false]) = [0; 1].
Proof. vm_compute. repeat split; reflexivity. Qed.

(** with a new view, and after a catch-up: all the instances of the pool run, those that ran are not touched,
    and no vote counts any more *)
Theorem C74_restored c s v t : let s' := step c s (ERestore v t) in
  (forall i, In i (running s') <-> In i (running s) \/ i <= flt s) /\
  (forall i r, replica i s = Some r -> replica i s' = Some r) /\
  (forall i r, replica i s = None -> replica i s' = Some r -> lost_at r = Some t) /\
  votes s' = [] /\ view s' = v.
Proof. apply restore_spec. Qed.
Theorem C74_restored_all f t v c es v' t' : let s := run c (start f t v) es in
  (forall i, In i (running s) -> i <= flt s) -> running (step c s (ERestore v' t')) = seq 0 (S (flt s)).
Proof. intros s H. apply restore_all; [|exact H]. apply sorted_run. apply sorted_start. Qed.
Example C74_restored_ex :
  let s := run dflt s7 [against 1 1; against 1 2; against 2 1; against 1 3; EDisc 2 4; EFire 2 8 false] in
  running s = [0; 2] /\ votes s = [(2, [(1, 1)])] /\ running (step dflt s (ERestore 2 9)) = [0; 1; 2].
Proof. vm_compute. repeat split; reflexivity. Qed.

(** the pool changes while no instance is missing: this raises nothing, the instances are those of the new pool,
    and those that were there are not touched *)
Theorem C74_adjusted_partial c s f t n : running s = seq 0 n ->
  set_pool_params t f s = Some (step c s (EAdjust f t)) /\
  running (step c s (EAdjust f t)) = seq 0 (S f) /\
  flt (step c s (EAdjust f t)) = f /\
  forall i, i < n -> i <= f -> replica i (step c s (EAdjust f t)) = replica i s.
Proof. intros H. split; [apply (params_spec c s f t n H)|apply (adjust_spec c s f t n H)]. Qed.
Example C74_adjusted_ex : running s7 = seq 0 3 /\ running (step dflt s7 (EAdjust 3 8)) = [0; 1; 2; 3] /\ running (step dflt s7 (EAdjust 0 8)) = [0] /\
  replica 1 (step dflt s7 (EAdjust 3 8)) = Some (Rep 1 (Some 0)) /\ replica 3 (step dflt s7 (EAdjust 3 8)) = Some (Rep 3 (Some 8)).
Proof. vm_compute. repeat split; reflexivity. Qed.

(** a backup whose primary is disconnected is dropped when, and not before, this lasted long enough, and it is
    not dropped when the primary came back; as long as no instance is missing *)
Theorem C74_lost_partial c s es i t t' ch n : on_disconnected c = Local -> i <> 0 -> In i (running s) ->
  Forall plain es -> (forall e, In e es -> ~ about i e) ->
  running (run c s (EDisc i t :: es)) = seq 0 n -> i < n -> t <= t' ->
  (In i (running (run c s (EDisc i t :: es ++ [EFire i t' ch]))) <-> t' < t + tolerate c).
Proof. apply lost_spec. Qed.
Theorem C74_back_partial c s es i t' ch n : on_disconnected c = Local -> In i (running s) ->
  Forall plain es -> (forall e, In e es -> ~ about i e) ->
  running (run c s (EConn i :: es)) = seq 0 n -> i < n ->
  In i (running (run c s (EConn i :: es ++ [EFire i t' ch]))).
Proof. apply back_spec. Qed.
Example C74_lost_ex :
  let es := [EConn 2; EDisc 1 6; against 1 3; EFire 1 7 false] in
  running (run dflt s7 (EDisc 2 4 :: [against 1 3; EDisc 1 6])) = seq 0 3 /\
  running (run dflt s7 (EDisc 2 4 :: [against 1 3; EDisc 1 6] ++ [EFire 2 8 false])) = [0; 1; 2] /\
  running (run dflt s7 (EDisc 2 4 :: [against 1 3; EDisc 1 6] ++ [EFire 2 9 false])) = [0; 1] /\
  running (run dflt s7 (EDisc 2 4 :: es ++ [EFire 2 9 false])) = [0; 1; 2].
Proof. vm_compute. repeat split; reflexivity. Qed.

(** Refuted: a node looks up when the primary of an instance was lost by the position of the instance among
    those it still runs.  Once instance 1 is gone, instance 2 is not dropped although its primary has been
    disconnected for long... *)
Definition gone1 : list event := [EConn 0; EConn 1; EConn 2; EConn 3; against 1 1; against 1 2; against 1 3; against 1 4].
Theorem C74_position_refuted : exists c s es i t t',
  on_disconnected c = Local /\ i <> 0 /\ Forall plain es /\ In i (running (run c s es)) /\ t + tolerate c <= t' /\
  In i (running (run c s (es ++ [EDisc i t; EFire i t' false]))).
Proof.
  exists dflt, s7, gone1, 2, 10, 15. split; [reflexivity|]. split; [lia|]. split; [repeat constructor|].
  split; [vm_compute; auto|]. split; [vm_compute; lia|]. vm_compute. auto.
Qed.
(** ...and instance 2, whose primary is connected, is dropped because the primary of instance 3 is not *)
Theorem C74_neighbour_refuted : exists c s es i t',
  on_disconnected c = Local /\ i <> 0 /\ Forall plain es /\ In i (running (run c s es)) /\
  (exists r, replica i (run c s es) = Some r /\ lost_at r = None) /\
  ~ In i (running (run c s (es ++ [EFire i t' false]))).
Proof.
  exists dflt, (start 3 0 1), (gone1 ++ [EDisc 2 10; EConn 2; EDisc 3 10]), 2, 15. split; [reflexivity|]. split; [lia|].
  split; [repeat constructor|]. split; [vm_compute; auto|]. split; [eexists; split; [vm_compute; reflexivity|reflexivity]|].
  vm_compute. intuition discriminate.
Qed.
(** Refuted: when the nodes of the pool change while instance 1 is gone, instance 2 is replaced by a new
    replica although f is the same, and instance 1 stays away... *)
Theorem C74_replaced_refuted : exists c s es t i r,
  replica i (run c s es) = Some r /\ flt (run c s es) = 2 /\ i <= 2 /\
  replica i (run c s (es ++ [EAdjust 2 t])) <> Some r /\ ~ In 1 (running (run c s (es ++ [EAdjust 2 t]))).
Proof.
  exists dflt, s7, gone1, 12, 2, (Rep 2 None). split; [vm_compute; reflexivity|]. split; [vm_compute; reflexivity|]. split; [lia|].
  split; [vm_compute; discriminate|]. vm_compute. intuition discriminate.
Qed.
(** ...and when the pool gets too small for it, instance 2 runs on, even after the replicas are restored *)
Theorem C74_surplus_refuted : exists c s es t,
  let s' := run c s (es ++ [EAdjust 0 t; ERestore 2 t]) in flt s' = 0 /\ In 2 (running s').
Proof. exists dflt, s7, gone1, 12. cbv zeta. split; [vm_compute; reflexivity|]. vm_compute. auto. Qed.
(** Refuted: that a node learns of its pool without an error; with instance 1 gone a LogicError is raised at the
    first batch of the next view, even if the pool is the same *)
Theorem C74_error_refuted : exists c es v t0 t, Forall plain es /\
  let s := run c s7 (ERestore v t0 :: es) in set_pool_params t (flt s) s = None.
Proof. exists dflt, gone1, 1, 0, 12. split; [repeat constructor|]. cbv zeta. vm_compute. reflexivity. Qed.
(** Refuted: a node that is not to remove instances by a quorum does so when the others give another reason *)
Theorem C74_reason_refuted : exists c s es i, on_degraded c = Off /\ on_disconnected c = Off /\
  Forall plain es /\ In i (running s) /\ ~ In i (running (run c s es)).
Proof.
  exists (Config 9 Off Off 5), s7, [EMsg (Msg 1 [1] 7) 1; EMsg (Msg 1 [1] 7) 2; EMsg (Msg 1 [1] 7) 3], 1.
  split; [reflexivity|]. split; [reflexivity|]. split; [repeat constructor|]. split; [vm_compute; auto|]. vm_compute. intuition discriminate.
Qed.
(** Refuted: votes against a replica that went away with a smaller pool count against the one that comes back *)
Theorem C74_stale_refuted : exists c s es es' i, votes s = [] /\
  ~ In i (running (run c s es)) /\ Forall no_restore es' /\
  ~ In i (running (run c s (es ++ es'))) /\ In i (running (run c s (es ++ firstn 1 es'))) /\
  ~ enough c (flt (run c s (es ++ es'))) (all_voters c i (run c s es) es') /\ ~ Exists (drops c i) (trace c (run c s es) es').
Proof.
  exists dflt, (start 1 0 1), [against 1 5; EAdjust 0 3], [EAdjust 1 4; against 1 6], 1.
  split; [reflexivity|]. split; [vm_compute; intuition discriminate|]. split; [repeat constructor|].
  split; [vm_compute; intuition discriminate|]. split; [vm_compute; auto|]. split.
  - vm_compute. lia.
  - intros X. inversion X as [? ? Y|? ? Y]; [exact Y|]. inversion Y as [? ? Z|? ? Z]; [exact Z|]. inversion Z.
Qed.

Print Assumptions C74_master.
Print Assumptions C74_quorum.
Print Assumptions C74_removed.
Print Assumptions C74_few.
Print Assumptions C74_told.
Print Assumptions C74_restored.
Print Assumptions C74_restored_all.
Print Assumptions C74_adjusted_partial.
Print Assumptions C74_lost_partial.
Print Assumptions C74_back_partial.
Print Assumptions C74_position_refuted.
Print Assumptions C74_neighbour_refuted.
Print Assumptions C74_replaced_refuted.
Print Assumptions C74_surplus_refuted.
Print Assumptions C74_error_refuted.
Print Assumptions C74_reason_refuted.
Print Assumptions C74_stale_refuted.
