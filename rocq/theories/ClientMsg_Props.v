(** C80: messages to clients that cannot be reached now.  Nothing handed over is lost without one of four stated reasons or sent more
    often than it was handed over, what is kept stays within the limits, and the timers sweep as they should; order and the meaning of
    the answer hold only in part. *)
From Coq Require Import List Arith Bool Lia Permutation Sorted.
Import ListNotations.
From Verif Require Import Dict ClientMsg_Model ClientMsg_Spec ClientMsg_Proofs.

Section C80.
  Variable net : nat -> nat -> nat -> outcome.
  Variables client_limit msg_limit resend_after remove_after : nat.
  Hypothesis one_client : 1 <= client_limit.
  Hypothesis one_msg : 1 <= msg_limit.
  Let run := run net client_limit msg_limit resend_after remove_after init.
  Let step := step net client_limit msg_limit resend_after remove_after.

  (** no call and no timer ever fails with an exception *)
  Theorem C80_never_raises os : run os <> None.
  Proof. destruct (inv_run net client_limit msg_limit resend_after remove_after one_client one_msg os) as (s & E & _). unfold run. rewrite E. discriminate. Qed.

  (** what was handed over for a client is, message by message, what left its queue and what is still there: nothing is lost
      without a trace, nothing is sent twice *)
  Theorem C80_conserved os s i : run os = Some s -> Permutation (given 0 i os) (gone i (log s) ++ q s i).
  Proof. intros R. exact (proj2 (proj2 (proj2 (inv_of _ _ _ _ _ one_client one_msg _ _ R))) i). Qed.

  (** what is kept is bounded *)
  Theorem C80_bounded os s : run os = Some s ->
    length (pend s) <= client_limit /\ NoDup (map fst (pend s)) /\ forall i l, In (i, l) (pend s) -> 1 <= length l <= msg_limit.
  Proof.
    intros R. destruct (inv_of _ _ _ _ _ one_client one_msg _ _ R) as ((W1 & W2) & (B1 & B2) & _). split; [exact B1|]. split; [exact W1|].
    intros i l I. split; [pose proof (W2 i l I); destruct l; [congruence|cbn; lia]|]. specialize (B2 i). unfold q, get_or in B2.
    rewrite (in_get _ _ _ W1 I) in B2. exact B2.
  Qed.

  (** the reasons: the socket took it; the socket refused it for good, or it is too large; it is too old *)
  Theorem C80_why os s e : run os = Some s -> In e (log s) ->
    match ev_why e with
    | Sent => exists p k, net p (ev_client e) k = Taken
    | Unsendable => exists p k, net p (ev_client e) k = TooLarge \/ net p (ev_client e) k = Broken
    | Expired => remove_after <= ev_at e - fst (ev_msg e)
    | Evicted => True
    end.
  Proof. intros R. exact (why_run _ _ _ _ _ one_client one_msg os s R e). Qed.
  (** ... and none makes room for others as long as there are not too many clients or messages *)
  Theorem C80_within_limits os s : run os = Some s ->
    length (nodup Nat.eq_dec (map fst (all_given os))) <= client_limit -> (forall i, length (given 0 i os) <= msg_limit) ->
    forall e, In e (log s) -> ev_why e <> Evicted.
  Proof. exact (no_evict_run _ _ _ _ _ one_client one_msg os s). Qed.

  (** what the caller is told: [True] means that this message was sent now; [False] that it is kept or could not be sent *)
  Theorem C80_answer_partial os s i m : run os = Some s -> exists s' r, give net client_limit msg_limit i m s = Some (s', r)
    /\ (r = true -> exists es, log s' = log s ++ es ++ [{| ev_why := Sent; ev_client := i; ev_msg := (now s, m); ev_at := now s |}])
    /\ (r = false -> In (now s, m) (q s' i)
          \/ exists es, log s' = log s ++ es ++ [{| ev_why := Unsendable; ev_client := i; ev_msg := (now s, m); ev_at := now s |}]).
  Proof. exact (give_result _ _ _ _ _ one_client one_msg os s i m). Qed.

  (** after the timer of 30 seconds, what is left that was due is left because the client could not be reached *)
  Theorem C80_resent os s : run os = Some s -> exists s', step s Resend = Some s' /\ forall i x, In x (q s' i) ->
    In x (q s i) /\ (resend_after <= now s - fst x -> exists k, net (pass s) i k = Retry).
  Proof. exact (resend_swept _ _ _ _ _ one_client one_msg os s). Qed.
  (** after the timer of 300 seconds, nothing older is left *)
  Theorem C80_cleaned os s : run os = Some s -> exists s', step s Clean = Some s' /\ forall i x, In x (q s' i) ->
    In x (q s i) /\ now s - fst x < remove_after.
  Proof. exact (clean_swept _ _ _ _ _ one_client one_msg os s). Qed.

  (** a client that can always be reached gets everything, at once, in order *)
  Theorem C80_reachable os s i : (forall p k, net p i k = Taken) -> run os = Some s -> q s i = [] /\ sent i (log s) = given 0 i os.
  Proof. intros N. exact (reachable_run _ _ _ _ _ one_client one_msg i N os s). Qed.

  (** messages, numbered as they are handed over, reach a client in that order if a client that cannot be reached stays so while a
      call walks over its list *)
  Theorem C80_order_partial os s i : steady net -> run os = Some s -> StronglySorted lt (map snd (all_given os)) ->
    StronglySorted lt (map snd (sent i (log s))).
  Proof. exact (fifo _ _ _ _ _ one_client one_msg os s i). Qed.
End C80.

(** *** what does not hold *)

(** a later message overtakes an earlier one *)
Theorem C80_order_refuted : exists net os s i, run net 2 2 3 30 init os = Some s
  /\ StronglySorted lt (map snd (all_given os)) /\ sent i (log s) = [(0, 2); (0, 1)].
Proof.
  exists (fun p _ k => if p <=? 1 then (if k =? 0 then Retry else Taken) else Taken), [Give 7 1; Give 7 2; Tick 3; Resend].
  eexists. exists 7. split; [vm_compute; reflexivity|]. split; [|vm_compute; reflexivity].
  cbn. repeat constructor.
Qed.
(** the caller was told that the message was not sent, and it is sent later *)
Theorem C80_answer_refuted : exists net s s', give net 2 2 7 1 init = Some (s, false) /\ run net 2 2 3 30 s [Tick 3; Resend] = Some s'
  /\ sent 7 (log s') = [(0, 1)].
Proof.
  exists (fun p _ _ => if p =? 0 then Retry else Taken). eexists. eexists. split; [vm_compute; reflexivity|]. split; vm_compute; reflexivity.
Qed.
(** a client's messages are thrown away when others cannot be reached either, although it can be reached again soon after *)
Theorem C80_kept_refuted : exists net os s, run net 2 2 3 30 init os = Some s /\ (forall p k, 3 <= p -> net p 7 k = Taken)
  /\ sent 7 (log s) = [] /\ q s 7 = [] /\ given 0 7 os = [(0, 1)].
Proof.
  exists (fun p _ _ => if p <? 3 then Retry else Taken), [Give 7 1; Give 8 2; Give 9 3; Tick 3; Resend]. eexists. split; [vm_compute; reflexivity|].
  split; [intros p k L; apply Nat.ltb_ge in L; rewrite L; reflexivity|]. split; [|split]; vm_compute; reflexivity.
Qed.
(** with a limit of no clients every call fails *)
Theorem C80_no_clients_refuted : exists net, give net 0 2 7 1 init = None.
Proof. exists (fun _ _ _ => Taken). vm_compute. reflexivity. Qed.

(** *** concrete cases *)
Definition mixed (p i k : nat) : outcome :=
  if i =? 7 then (if p <? 2 then Retry else Taken) else if i =? 8 then Retry else Broken.
Definition mixed_ops : list op := [Give 7 1; Give 7 2; Give 8 3; Tick 3; Resend; Give 7 4; Give 8 5; Give 8 6; Give 9 7; Tick 30; Clean].
Example C80_case : exists s, run mixed 2 2 3 30 init mixed_ops = Some s
  /\ sent 7 (log s) = [(0, 1); (0, 2); (3, 4)] /\ gone 8 (log s) = [(0, 3); (3, 5); (3, 6)] /\ gone 9 (log s) = [(3, 7)]
  /\ q s 8 = [] /\ map ev_why (log s) = [Sent; Sent; Sent; Evicted; Unsendable; Expired; Expired].
Proof. eexists. split; [vm_compute; reflexivity|]. repeat split; vm_compute; reflexivity. Qed.
Example C80_case_limits : steady mixed /\ StronglySorted lt (map snd (all_given mixed_ops)).
Proof.
  split; [|cbn; repeat constructor; cbn; lia]. intros p i k k' _. unfold mixed. destruct (i =? 7); [destruct (p <? 2); congruence|]. destruct (i =? 8); congruence.
Qed.
(** messages wait, and the limits are not reached *)
Example C80_case_within : exists s, run mixed 3 3 3 30 init [Give 7 1; Give 7 2; Give 8 3; Tick 3; Resend] = Some s
  /\ length (nodup Nat.eq_dec (map fst (all_given [Give 7 1; Give 7 2; Give 8 3; Tick 3; Resend]))) <= 3 /\ q s 8 = [(0, 3)] /\ length (log s) = 2.
Proof. eexists. split; [vm_compute; reflexivity|]. split; [cbn; lia|]. split; vm_compute; reflexivity. Qed.

Print Assumptions C80_never_raises.
Print Assumptions C80_conserved.
Print Assumptions C80_bounded.
Print Assumptions C80_why.
Print Assumptions C80_within_limits.
Print Assumptions C80_answer_partial.
Print Assumptions C80_resent.
Print Assumptions C80_cleaned.
Print Assumptions C80_reachable.
Print Assumptions C80_order_partial.
Print Assumptions C80_order_refuted.
Print Assumptions C80_answer_refuted.
Print Assumptions C80_kept_refuted.
Print Assumptions C80_no_clients_refuted.
