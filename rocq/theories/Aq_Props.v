(** C83: actions that were asked for are run once, when due, unless cancelled; repeated ones again and again. *)
From Coq Require Import List Arith Bool Lia.
Import ListNotations.
From Verif Require Import Aq_Model Aq_Spec Aq_Proofs.

Section C83.
  (** whatever the actions do *)
  Variable prog : nat -> list cmd.
  Notation service := (service prog).
  Notation run := (run prog).

  (** What is run was asked for, is not cancelled, is due, and is run once. *)
  Theorem C83_justified os : justified (trace (run init os)).
  Proof. apply vJ. apply (run_ok prog os init init_inv). Qed.
  (** When a call comes to its end, everything that was due at its start has been run or cancelled. *)
  Theorem C83_complete os n : snd (service n (run init os)) = Done ->
    forall i k d, In (i, k, d) (pending (trace (fst (service n (run init os))))) -> ~ is_due (now (run init os)) d.
  Proof.
    intros E i k d H. destruct (service_done prog n _ (proj1 (run_ok prog os init init_inv)) E i k d H) as (t & -> & Ht). cbn. lia.
  Qed.
  (** Nothing is forgotten: what is to be run is in one of the two queues, and will be found there. *)
  Theorem C83_kept os i k d : In (i, k, d) (pending (trace (run init os))) ->
    In (k, i) (queue (run init os)) \/ exists t, d = Some t /\ In (t, (k, i)) (stash (run init os)).
  Proof. intros H. destruct (vA _ (proj1 (run_ok prog os init init_inv)) i k d H) as [_ [[Hq _]|Hs]]; auto. Qed.
  (** The assertion holds, and only errors of actions are raised. *)
  Theorem C83_error os n : (forall a s, snd (exec_all s (prog a)) = false) -> snd (service n (run init os)) <> Raised.
  Proof.
    intros Hp. unfold Aq_Model.service. destruct (take_due_inv _ (proj1 (run_ok prog os init init_inv))) as [H _]. revert H. generalize (take_due (run init os)).
    induction n as [|n IH]; intros s H; cbn [loop]; destruct (queue s) as [|[k i] q] eqn:Hq; try discriminate.
    cbn [scheduled with_queue]. destruct (look k (scheduled s)) as [l|] eqn:L.
    2:{ exfalso. apply look_none in L. apply L. apply (vD s H k i). rewrite Hq. left. now left. }
    destruct (mem i l) eqn:M.
    - apply mem_in in M. destruct (ran_inv s k i q l H Hq L M) as [H1 _]. cbn [now with_queue]. set (s1 := note _ _) in *. clearbody s1.
      destruct (run_key_ok prog k s1 H1) as [H2 _]. assert (snd (run_key prog k s1) = false) as E.
      { destruct k as [a|c a d]; cbn [run_key]; [apply Hp|]. destruct (mem a (reps s1)); [|reflexivity]. specialize (Hp a s1).
        destruct (exec_all s1 (prog a)) as [s2 e]. cbn [snd] in Hp. subst e. reflexivity. }
      destruct (run_key prog k s1) as [s2 e]. cbn [fst snd] in *. subst e. apply IH. exact H2.
    - apply IH. eapply pop_inv; eauto. intros l' L' Hl. rewrite L in L'. injection L' as <-. apply mem_in in Hl. congruence.
  Qed.
  (** An action that was started, and is not stopped, nor cancelled by id, while no action raises an error, is waiting exactly once after every call
      (none before it was started), and for no longer than its interval. *)
  Theorem C83_repeats a0 os n c a d x i : (forall a c, In c (prog a) -> calm a0 c) -> (forall o, In o os -> calm_op a0 o) ->
    let s := run init os in
    (length (filter (fun w => repeats a0 (snd (fst w))) (pending (trace s))) = if mem a0 (reps s) then 1 else 0) /\
    (In (i, Wrap c a d, x) (pending (trace s)) -> 0 < d -> exists t, x = Some t /\ t <= now s + d) /\
    snd (service n s) <> Raised.
  Proof.
    intros Hp Ho s. destruct (run_ok prog os init init_inv) as [Hi _]. assert (one a0 s) as H1. { apply run_one; auto. apply init_inv. reflexivity. }
    split; [exact H1|]. split.
    - intros Hx Hd. destruct (dated_run prog os init (fun i c a d x (H : In _ []) => match H with end) i c a d x Hx) as [[E _]|Hy]; [lia|exact Hy].
    - apply (service_one prog a0 Hp n s Hi H1).
  Qed.
  (** ** What goes wrong *)
  (** No action is ever forgotten: the table of actions only grows (with [partial], each call is a new action). *)
  Theorem C83_leak_refuted os a d os' : In (Plain a) (map fst (scheduled (run init (os ++ Do (Schedule a d) :: os')))).
  Proof.
    unfold Aq_Model.run. rewrite fold_left_app. cbn [fold_left]. fold (run init os). set (s := run init os).
    assert (inv (step prog s (Do (Schedule a d)))) as Hi by (apply step_ok; apply (run_ok prog os init init_inv)).
    destruct (run_ok prog os' _ Hi) as [_ (_ & _ & G & _)]. apply G. cbn [step exec fst]. unfold schedule. destruct (0 <? d); cbn [scheduled with_scheduled];
      apply keys_put; now left.
  Qed.
End C83.
Print Assumptions C83_justified.
Print Assumptions C83_complete.
Print Assumptions C83_kept.
Print Assumptions C83_error.
Print Assumptions C83_repeats.
Print Assumptions C83_leak_refuted.

(** ** Examples *)
(** Action 1 asks for action 2 at once and cancels 3; 4 takes two units of time; 5 raises an error. *)
Definition prog0 (a : nat) : list cmd := match a with 1 => [Schedule 2 0; CancelAll 3] | 4 => [Wait 2] | 5 => [Raise] | _ => [] end.
Definition go (os : list op) : list event := filter (fun e => match e with Ran _ _ => true | _ => false end) (trace (run prog0 init os)).
Example C83_once : go [Do (Schedule 1 3); Do (Schedule 3 9); Do (Schedule 7 0); Service 9; Do (Wait 4); Service 9; Do (Wait 9); Service 9] = [Ran 3 0; Ran 1 4; Ran 4 4].
Proof. reflexivity. Qed.
(** Action 4, every 10: it is late by what it takes itself. *)
Example C83_again : go [Do (Start 4 10); Do (Wait 11); Service 9; Do (Wait 11); Service 9; Do (Wait 8); Service 9; Do (Wait 3); Service 9] = [Ran 1 11; Ran 2 24; Ran 3 37] /\
  pending (trace (run prog0 init [Do (Start 4 10); Do (Wait 11); Service 9])) = [(2, Wrap 0 4 10, Some 23)].
Proof. split; reflexivity. Qed.
Example C83_calm : (forall o, In o [Do (Start 4 10); Do (Wait 11); Service 9; Do (Stop 6 false)] -> calm_op 4 o) /\
  forall a c, In c ((fun a => match a with 1 => [Schedule 2 0; CancelAll 3] | 4 => [Wait 2] | _ => [] end) a) -> calm 4 c.
Proof.
  split.
  - intros o [<-|[<-|[<-|[<-|[]]]]]; cbn; auto. split; [discriminate|reflexivity].
  - intros [|[|[|[|[|a]]]]] c; cbn; intros H; repeat (destruct H as [<-|H]; [exact I|]); destruct H.
Qed.

(** Actions that become due together are run in the order opposite to that in which they were asked for, not by time. *)
Theorem C83_order_refuted : go [Do (Schedule 6 1); Do (Schedule 7 2); Do (Wait 3); Service 9] = [Ran 2 3; Ran 1 3].
Proof. reflexivity. Qed.
(** An action that is stopped and started again within the interval is from then on run twice in each. *)
Theorem C83_restart_refuted : go [Do (Start 6 10); Do (Wait 1); Do (Stop 6 true); Do (Start 6 10); Do (Wait 11); Service 9; Do (Wait 11); Service 9; Do (Wait 11); Service 9] =
  [Ran 2 12; Ran 1 12; Ran 4 23; Ran 3 23; Ran 6 34; Ran 5 34].
Proof. reflexivity. Qed.
(** A repeated action that once raises an error is not run again, although it is still taken for repeated, and starting it again does nothing. *)
Theorem C83_raised_refuted : snd (service prog0 9 (run prog0 init [Do (Start 5 10); Do (Wait 11)])) = Raised /\
  forall d n m, let s := run prog0 init [Do (Start 5 10); Do (Wait 11); Service 9; Do (Start 5 10); Do (Wait d); Service n; Do (Start 5 m)] in
  mem 5 (reps s) = true /\ pending (trace s) = [].
Proof. split; [reflexivity|]. intros d n m. destruct n; split; reflexivity. Qed.
(** A repeated action cannot be cancelled as an action. *)
Theorem C83_cancel_refuted : go [Do (Start 6 10); Do (CancelAll 6); Do (Wait 11); Service 9] = [Ran 1 11].
Proof. reflexivity. Qed.
(** An action repeated without interval never lets go. *)
Lemma zero_loops n : forall s, queue s = [(Wrap 0 6 0, aid s)] -> reps s = [6] -> scheduled s = [(Wrap 0 6 0, [aid s])] -> snd (loop prog0 n s) = Loops.
Proof.
  induction n as [|n IH]; intros s Hq Hr Hs; cbn [loop]; rewrite Hq; [reflexivity|]. cbn [scheduled with_queue]. rewrite Hs. cbn [look key_eqb Nat.eqb andb].
  assert (mem (aid s) [aid s] = true) as -> by (cbn; now rewrite Nat.eqb_refl). cbn [run_key reps note with_scheduled with_queue now]. rewrite Hr.
  cbn [mem existsb Nat.eqb orb prog0 exec_all]. apply IH; unfold schedule; cbn; rewrite ?Nat.eqb_refl; auto.
Qed.
Theorem C83_zero_refuted n : snd (service prog0 n (run prog0 init [Do (Start 6 0)])) = Loops.
Proof. apply zero_loops; reflexivity. Qed.
Print Assumptions C83_zero_refuted.
