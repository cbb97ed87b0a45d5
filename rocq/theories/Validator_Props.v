(** Property C29: only in-window messages of the current view are processed. *)
From Coq Require Import List Arith Bool Lia.
From Verif Require Import Validator_Model.
Import ListNotations.

(** A three phase message for instance [i], view [v] and batch number [s] is processed by a
    replica in exactly this situation: it is for this instance and view, the node participates
    and waits for no new view, the batch is inside the watermarks, it is new (or one of the
    batches carried over from the previous view), and if it is later than the first batch of a
    view the first one has been ordered. *)
Definition to_process (d : vdata) (i v s : nat) : Prop :=
  i = d_inst d /\ v = d_view d /\ d_participating d = true /\ d_waiting_for_new_view d = false /\
  0 < s /\ d_low d < s <= d_high d /\
  (snd (d_last_ordered d) < s \/ s <= d_prev_cert d) /\
  (v = 0 \/ s <= d_prev_cert d + 1 \/ d_prev_cert d + 1 <= snd (d_last_ordered d)).

Theorem C29_processed_iff : forall d i v s,
  validate_3pc d i v s = PROCESS <-> to_process d i v s.
Proof.
  intros d i v s. unfold validate_3pc, validate_base, has_already_ordered, le_3pc, to_process. cbn [snd].
  destruct (Nat.eqb_spec i (d_inst d)); cbn [negb]; [|split; [discriminate|tauto]].
  destruct (Nat.eqb_spec s 0); [split; [discriminate|intros; lia]|].
  destruct (Nat.leb_spec s (d_low d)); [split; [discriminate|intros; lia]|].
  destruct (Nat.ltb_spec v (d_view d)); [split; [discriminate|intros; lia]|].
  destruct (Nat.ltb_spec (d_view d) v); [split; [discriminate|intros; lia]|].
  destruct (d_participating d); cbn [negb]; [|split; [discriminate|intuition discriminate]].
  destruct (d_waiting_for_new_view d); [split; [discriminate|intuition discriminate]|].
  destruct (Nat.ltb_spec (d_high d) s); [split; [discriminate|intros; lia]|].
  destruct (Nat.leb_spec s (snd (d_last_ordered d))); destruct (Nat.ltb_spec (d_prev_cert d) s); cbn [andb];
    try (split; [discriminate|intros; lia]);
  destruct (Nat.ltb_spec 0 v); destruct (Nat.ltb_spec (S (d_prev_cert d)) s);
  destruct (Nat.ltb_spec (snd (d_last_ordered d)) (S (d_prev_cert d))); cbn [andb];
    (split; [try discriminate; intros _; repeat split; auto; lia|try reflexivity; intros; lia]).
Qed.

(** A message is dropped for good exactly when it can never become processable: wrong
    instance, number 0, at or below the low watermark, an old view, or (with nothing else
    holding it back) an already ordered batch of this view. *)
Theorem C29_discarded_iff : forall d i v s,
  validate_3pc d i v s = DISCARD <->
  (i <> d_inst d \/ s = 0 \/ s <= d_low d \/ v < d_view d \/
   (v = d_view d /\ d_participating d = true /\ d_waiting_for_new_view d = false /\ s <= d_high d /\
    s <= snd (d_last_ordered d) /\ d_prev_cert d < s)).
Proof.
  intros d i v s. unfold validate_3pc, validate_base, has_already_ordered, le_3pc. cbn [snd].
  destruct (Nat.eqb_spec i (d_inst d)); cbn [negb]; [|tauto].
  destruct (Nat.eqb_spec s 0); [tauto|].
  destruct (Nat.leb_spec s (d_low d)); [tauto|].
  destruct (Nat.ltb_spec v (d_view d)); [tauto|].
  destruct (Nat.ltb_spec (d_view d) v); [split; [discriminate|intros; lia]|].
  destruct (d_participating d); cbn [negb]; [|split; [discriminate|intros [?|[?|[?|[?|H']]]]; try lia; destruct H' as (_ & X & _); discriminate]].
  destruct (d_waiting_for_new_view d); [split; [discriminate|intros [?|[?|[?|[?|H']]]]; try lia; destruct H' as (_ & _ & X & _); discriminate]|].
  destruct (Nat.ltb_spec (d_high d) s); [split; [discriminate|intros; lia]|].
  destruct (Nat.leb_spec s (snd (d_last_ordered d))); destruct (Nat.ltb_spec (d_prev_cert d) s); cbn [andb];
    try (split; [intros _; repeat right; repeat split; auto; lia|reflexivity]);
  destruct (Nat.ltb_spec 0 v); destruct (Nat.ltb_spec (S (d_prev_cert d)) s);
  destruct (Nat.ltb_spec (snd (d_last_ordered d)) (S (d_prev_cert d))); cbn [andb];
    (split; [discriminate|intros; lia]).
Qed.

(** In particular a message of an old view, or at or below the low watermark, is never kept. *)
Corollary C29_old_never_stashed : forall d i v s,
  v < d_view d \/ s <= d_low d -> validate_3pc d i v s = DISCARD.
Proof. intros d i v s H. apply C29_discarded_iff. tauto. Qed.

(** A stashed message names what it waits for: the stash it is put into is emptied by the
    event that removes the obstacle, and nothing is stashed without an obstacle. *)
Theorem C29_stashed_has_obstacle : forall d i v s,
  (validate_3pc d i v s = STASH_VIEW_3PC ->
     d_view d < v \/ v = d_view d /\ d_participating d = true /\ d_waiting_for_new_view d = true) /\
  (validate_3pc d i v s = STASH_CATCH_UP -> v = d_view d /\ d_participating d = false) /\
  (validate_3pc d i v s = STASH_WATERMARKS -> v = d_view d /\ d_high d < s) /\
  (validate_3pc d i v s = STASH_WAITING_FIRST_BATCH_IN_VIEW ->
     v = d_view d /\ 0 < v /\ d_prev_cert d + 1 < s /\ snd (d_last_ordered d) <= d_prev_cert d).
Proof.
  intros d i v s. unfold validate_3pc, validate_base, has_already_ordered, le_3pc. cbn [snd].
  destruct (Nat.eqb_spec i (d_inst d)); cbn [negb]; [|repeat split; discriminate].
  destruct (Nat.eqb_spec s 0); [repeat split; discriminate|].
  destruct (Nat.leb_spec s (d_low d)); [repeat split; discriminate|].
  destruct (Nat.ltb_spec v (d_view d)); [repeat split; discriminate|].
  destruct (Nat.ltb_spec (d_view d) v); [repeat split; auto; discriminate|].
  assert (v = d_view d) by lia.
  destruct (d_participating d); cbn [negb]; [|repeat split; auto; discriminate].
  destruct (d_waiting_for_new_view d); [repeat split; auto; discriminate|].
  destruct (Nat.ltb_spec (d_high d) s); [repeat split; auto; discriminate|].
  destruct (Nat.leb_spec s (snd (d_last_ordered d))); destruct (Nat.ltb_spec (d_prev_cert d) s); cbn [andb];
    try (repeat split; discriminate);
  destruct (Nat.ltb_spec 0 v); destruct (Nat.ltb_spec (S (d_prev_cert d)) s);
  destruct (Nat.ltb_spec (snd (d_last_ordered d)) (S (d_prev_cert d))); cbn [andb];
    (split; [discriminate|split; [discriminate|split; [discriminate|]]]; intros; try discriminate; lia).
Qed.

(** A replica of view 3 that carried batches up to 40 over from view 2 and ordered up to 41:
    43 is processed, 41 is dropped, 39 (being re-ordered) is processed, 400 waits. *)
Definition vdata_example : vdata := VData 0 true 3 false true 30 330 (3, 41) 40.
Example validator_cases :
  map (validate_3pc vdata_example 0 3) [43; 41; 39; 400; 30] =
    [PROCESS; DISCARD; PROCESS; STASH_WATERMARKS; DISCARD] /\
  map (fun v => validate_3pc vdata_example 0 v 42) [2; 3; 4] = [DISCARD; PROCESS; STASH_VIEW_3PC] /\
  to_process vdata_example 0 3 43.
Proof. split; [vm_compute; reflexivity|split; [vm_compute; reflexivity|]]. apply C29_processed_iff. vm_compute. reflexivity. Qed.

Print Assumptions C29_processed_iff.
Print Assumptions C29_discarded_iff.
Print Assumptions C29_old_never_stashed.
Print Assumptions C29_stashed_has_obstacle.
