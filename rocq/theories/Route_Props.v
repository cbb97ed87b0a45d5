(** C92: a protocol instance is handed what is meant for it. *)
From Coq Require Import List Arith Bool Lia.
From Verif Require Import Dict Route_Model Route_Spec Route_Proofs.
Import ListNotations.

(** As long as no instance is found faulty, after any history of messages and changes of the pool there are as many instances as the pool
    asks for, and each was handed, in the order in which they came, exactly the messages meant for it since it was made, after those
    three-phase messages that came for it before.  Missing: see the refuted cases. *)
Theorem C92_handed_partial : forall os, Forall fine os -> forall i,
  handed i (run init os) = if i <? instances 0 os then Some (told i 0 [] os) else None.
Proof. intros os F i. apply handed_told. exact F. Qed.

(** No message is lost: one that is meant for an instance that is there, or a three-phase message for one that is not, is handed to it if it
    comes to be there without having been removed in the meantime. *)
Theorem C92_none_lost_partial : forall a m b i, Forall fine (a ++ Recv m :: b) -> meant_for i m = true ->
  i < instances 0 a \/ m_kind m = ThreePhase ->
  (forall b1 r b2, b = b1 ++ Pool r :: b2 -> instances 0 (a ++ b1) <= i \/ i < r) ->
  i < instances 0 (a ++ Recv m :: b) ->
  exists x y, handed i (run init (a ++ Recv m :: b)) = Some (x ++ m :: y).
Proof.
  intros a m b i F M K S L. rewrite (handed_told _ i F). destruct (Nat.ltb_spec i (instances 0 (a ++ Recv m :: b))); [|lia].
  rewrite told_app. cbn [told]. rewrite M.
  assert (E : (i <? instances 0 a) || kept m = true) by (destruct K as [K|K]; [apply Nat.ltb_lt in K; rewrite K; reflexivity|unfold kept; rewrite K; apply orb_true_r]).
  rewrite E. cbn [andb]. destruct (told_extends i b (instances 0 a) (told i 0 [] a ++ [m])) as (y & ->).
  - intros b1 r b2 Eb. rewrite <- instances_app. apply (S b1 r b2 Eb).
  - exists (told i 0 [] a), y. rewrite <- app_assoc. reflexivity.
Qed.

Definition mine (i x : nat) : msg := Msg ThreePhase (Some i) 7 x.
Definition point (i x : nat) : msg := Msg Other (Some i) 7 x.
Definition all (x : nat) : msg := Msg Other None 7 x.
Definition story : list op :=
  [Pool 1; Recv (mine 1 1); Recv (point 1 2); Recv (all 3); Recv (mine 1 4); Pool 3; Recv (mine 2 5); Recv (all 6); Pool 2; Recv (mine 2 7); Recv (mine 1 8);
   Recv (Msg Change None 7 9); Pool 3].
Example story_fine : Forall fine story.
Proof. unfold story. repeat constructor; cbn; intros; discriminate. Qed.
Example story_handed :
  map (fun i => handed i (run init story)) [0; 1; 2; 3] =
  [Some [all 3; all 6; Msg Change None 7 9]; Some [mine 1 1; mine 1 4; all 6; mine 1 8]; Some [mine 2 7]; None].
Proof. vm_compute. reflexivity. Qed.

(** What is held for an instance to come, of three-phase messages, is what it is to be told. *)
Theorem C92_held_partial : forall os, Forall fine os -> forall i, instances 0 os <= i ->
  filter kept (waiting i (run init os)) = told i 0 [] os.
Proof. intros os F i. apply waiting_told. exact F. Qed.
Example held_example : waiting 2 (run init [Pool 1; Recv (mine 2 1); Recv (mine 1 2); Recv (mine 2 3)]) = [mine 2 1; mine 2 3].
Proof. reflexivity. Qed.

(** Refuted: other messages (checkpoints, say) for an instance that is not there, though held, are never handed to any: whatever happens later, all
    is as if they had not come. *)
Theorem C92_other_refuted : forall s m i os j, m_kind m = Other -> m_inst m = Some i -> handed i s = None ->
  handed j (run s (Recv m :: os)) = handed j (run s os).
Proof.
  intros s m i os j K I G. destruct (alike_run os _ _ (other_lost s m i K I G)) as (E & _). unfold handed. rewrite <- E. reflexivity.
Qed.
Example other_example : handed 1 (run init [Pool 1; Recv (point 1 2); Pool 2]) = Some [] /\
  waiting 1 (run init [Pool 1; Recv (point 1 2)]) = [point 1 2].
Proof. split; reflexivity. Qed.

(** Refuted: a message for an instance that was found faulty and removed, and is made again at the next view change, is dropped. *)
Theorem C92_faulty_refuted : forall s m i, m_kind m <> Change -> m_inst m = Some i -> handed i s = None -> i < required s ->
  step s (Recv m) = s /\ handed i (run s [Recv m; ViewChanged]) = Some [].
Proof.
  intros s m i K I G H. split; [apply (dropped s m i K I G H)|]. cbn [run fold_left]. rewrite (dropped s m i K I G H).
  apply restore_handed; [exact G|]. apply in_seq. lia.
Qed.
Example faulty_example : handed 1 (run init [Pool 2; Remove 1]) = None /\ 1 < required (run init [Pool 2; Remove 1]).
Proof. split; [reflexivity|]. cbn. lia. Qed.

(** Refuted: if the pool grows while an instance is removed, another one is made anew and what it was handed is gone; the one that is missing stays
    missing. *)
Theorem C92_overwritten_refuted : exists os m,
  handed 2 (run init os) = Some [m] /\ handed 2 (run init (os ++ [Pool 4])) = Some [] /\ handed 1 (run init (os ++ [Pool 4])) = None.
Proof. exists [Pool 3; Remove 1; Recv (mine 2 5)], (mine 2 5). repeat split; reflexivity. Qed.

(** Refuted: what is held for instances that are not there is bounded.  One node can have any number of messages held. *)
Theorem C92_bound_refuted : forall s m i k, m_kind m <> Change -> m_inst m = Some i -> handed i s = None -> required s <= i ->
  waiting i (run s (repeat (Recv m) k)) = waiting i s ++ repeat m k.
Proof. intros s m i k K I G H. apply holds_all; assumption. Qed.
Example bound_example : length (waiting 9 (run init (Pool 1 :: repeat (Recv (mine 9 1)) 50))) = 50.
Proof. vm_compute. reflexivity. Qed.

Print Assumptions C92_handed_partial.
Print Assumptions C92_none_lost_partial.
Print Assumptions C92_held_partial.
Print Assumptions C92_other_refuted.
Print Assumptions C92_faulty_refuted.
Print Assumptions C92_overwritten_refuted.
Print Assumptions C92_bound_refuted.
