(** C95: observers are told of the batches that are committed. *)
From Coq Require Import List Arith Bool Lia.
From Verif Require Import Observable_Model Observable_Spec Observable_Proofs.
Import ListNotations.

(** Who is an observer: whoever was added, with this policy, more often than removed. *)
Theorem C95_observers : forall h x, In x (observers (run init h)) <-> observes h x.
Proof. intros. apply observers_run. Qed.
Example C95_observers_example : observes [Add 1 true; Add 2 false; Remove 3; Add 3 true] 3 /\ ~ observes [Add 1 true; Add 2 false; Remove 3; Add 3 true] 2.
Proof. unfold observes. cbn. lia. Qed.

(** What is sent, or waits to be, are committed batches in their order, none twice. *)
Theorem C95_order : forall h, let s := run init h in part (map fst (sent s) ++ outbox s ++ inbox s) (committed h).
Proof. intros h. exact (all_run h init). Qed.

(** Full claim: "each batch that is committed is sent".  Proved: if there is an observer whenever the queues are served (and the node still had the requests of
    the batch, see [committed]). *)
Theorem C95_complete_partial : forall h, (forall h1 h2 limit, h = h1 ++ Service true limit :: h2 -> exists x, observes h1 x) ->
  let s := run init h in map fst (sent s) ++ outbox s ++ inbox s = committed h.
Proof.
  intros h H. apply (all_run_eq h init). intros h1 h2 limit E. destruct (H h1 h2 limit E) as [x Hx]. apply observers_run in Hx.
  intros Z. rewrite Z in Hx. destruct Hx.
Qed.
(** What waits is sent in the end, whatever the limits are. *)
Theorem C95_sent_partial : forall h limits, let s := run init h in
  (exists x, observes h x) -> length (outbox s) + 2 * length (inbox s) <= length limits ->
  map fst (sent (run init (h ++ map (Service true) limits))) = map fst (sent s) ++ outbox s ++ inbox s.
Proof.
  intros h limits s (x & Hx) L. unfold run. rewrite fold_left_app. fold (run init h). fold s. fold (run s (map (Service true) limits)).
  destruct (empties limits s L) as [O I].
  assert (E : all (run s (map (Service true) limits)) = all s ++ committed (map (Service true) limits)).
  { apply all_run_eq. intros h1 h2 limit E.
    assert (P : exists ls, h1 = map (Service true) ls).
    { clear -E. revert limits E. induction h1 as [|o h1 IH]; intros [|l ls] E; [exists []; reflexivity | exists []; reflexivity | discriminate |].
      cbn [map app] in E. injection E as <- E. destruct (IH ls E) as [ls' ->]. now exists (l :: ls'). }
    destruct P as [ls ->]. destruct (services_quiet ls s) as [_ ->]. apply observers_run in Hx. intros Z. unfold s in Z. rewrite Z in Hx. destruct Hx. }
  unfold all in E. rewrite O, I, !app_nil_r in E. rewrite E.
  assert (C : committed (map (Service true) limits) = []) by (clear; induction limits; [reflexivity | exact IHlimits]).
  now rewrite C, app_nil_r.
Qed.
Example C95_sent_example :
  let h := [Connect 10 1; Connect 20 2; Connect 30 3; Add 2 true; Add 3 true; Commit 7 true; Service true 1; Commit 8 true; Commit 9 true] in
  sent (run init (h ++ map (Service true) [1; 1; 1; 1; 1])) = [(7, [20; 30]); (8, [20; 30]); (9, [20; 30])].
Proof. vm_compute. reflexivity. Qed.

(** To whom: to the observers that are there when it is sent, each once, if there is one of them; if there is none, to everybody. *)
Theorem C95_recipients : forall h b rs, In (b, rs) (sent (run init h)) -> NoDup rs /\
  exists h1 limit h2, h = h1 ++ Service true limit :: h2 /\ forall r, In r rs <->
    (exists n, there h1 r n /\ observes h1 n) \/ ((~ exists q n, there h1 q n /\ observes h1 n) /\ exists n, there h1 r n).
Proof.
  intros h b rs H. apply sent_run in H as [[]|(h1 & limit & h2 & E & R)]. split.
  - subst rs. apply recipients_length. destruct (remotes_run 0 h1 init); [constructor | assumption].
  - exists h1, limit, h2. split; [exact E|]. intros r. subst rs. rewrite recipients_in. split.
    + intros [(n & A & B)|[A (n & B)]].
      * left. exists n. split; [now apply remotes_there | now apply observers_run].
      * right. split; [|exists n; now apply remotes_there]. intros (q & m & C & D). apply A. exists q, m.
        split; [now apply remotes_there | now apply observers_run].
    + intros [(n & A & B)|[A (n & B)]].
      * left. exists n. split; [now apply remotes_there | now apply observers_run].
      * right. split; [|exists n; now apply remotes_there]. intros (q & m & C & D). apply A. exists q, m.
        split; [now apply remotes_there | now apply observers_run].
Qed.
(** Sending to chosen nodes, in general (catch-up, answers and all else go this way): to those of them that are there, or, if none of them is, to all. *)
Theorem C95_send : forall rem names r, In r (recipients rem names) <->
  (exists n, In (r, n) rem /\ In n names) \/ ((~ exists q n, In (q, n) rem /\ In n names) /\ exists n, In (r, n) rem).
Proof. exact recipients_in. Qed.

(** Refuted: "only observers get what is for observers", "what is for one node goes to no other": whenever the one it is for is not there, everybody gets it. *)
Theorem C95_all_refuted : forall rem x r n, In (r, n) rem -> ~ (exists q, In (q, x) rem) -> In r (recipients rem [x]).
Proof.
  intros rem x r n H N. apply recipients_in. right. split; [|now exists n]. intros (q & m & A & [<-|[]]). apply N. now exists q.
Qed.
Example C95_all_example : sent (run init [Connect 10 1; Connect 20 2; Add 3 true; Commit 7 true; Service true 0; Service true 0]) = [(7, [10; 20])].
Proof. vm_compute. reflexivity. Qed.
(** Refuted: "after the last observer is removed nothing is sent": what waits then goes to everybody. *)
Theorem C95_removed_refuted : exists h x r n b, there h r n /\ ~ observes h n /\ (forall y, ~ observes (h ++ [Remove x]) y) /\
  forall limit, exists rs, In (b, rs) (sent (run init (h ++ [Remove x; Service true limit]))) /\ In r rs.
Proof.
  exists [Connect 10 1; Connect 20 2; Add 2 true; Commit 7 true; Service true 0], 2, 10, 1, 7.
  split; [reflexivity|]. split; [unfold observes; cbn; lia|]. split.
  - intros y. unfold observes. cbn. destruct (y =? 2); cbn; lia.
  - intros limit. exists [10; 20]. split; [|now left]. destruct limit as [|l]; cbn; auto.
Qed.
(** Refuted: "whoever is removed gets nothing": added twice, it stays. *)
Theorem C95_twice_refuted : exists h x r, there h r x /\ forall limit, exists b rs,
  In (b, rs) (sent (run init (h ++ [Remove x; Commit b true; Service true limit; Service true limit]))) /\ In r rs.
Proof.
  exists [Connect 10 1; Add 1 true; Add 1 true], 1, 10. split; [reflexivity|]. intros limit. exists 7, [10]. split; [|now left].
  destruct limit as [|[|l]]; cbn; auto.
Qed.
(** Refuted: "each batch committed is sent": not if the node has no longer one of its requests, and not those that are served while nobody observes, though
    somebody did when they were committed. *)
Theorem C95_lost_refuted : forall h b os, (forall o, In o os -> exists ready limit, o = Service ready limit) -> ~ In b (committed h) ->
  forall rs, ~ In (b, rs) (sent (run init (h ++ Commit b false :: os))).
Proof.
  intros h b os H N rs X. pose proof (C95_order (h ++ Commit b false :: os)) as P. cbv zeta in P.
  assert (C : committed (h ++ Commit b false :: os) = committed h).
  { unfold committed. rewrite flat_map_app. cbn [flat_map app]. rewrite <- (app_nil_r (flat_map _ h)) at 2. f_equal.
    clear -H. induction os as [|o os IH]; [reflexivity|]. cbn [flat_map]. destruct (H o (or_introl eq_refl)) as (rd & l & ->).
    apply IH. intros o Ho. apply H. now right. }
  rewrite C in P.
  assert (Q : forall (a c : list nat), part a c -> In b a -> In b c).
  { clear. induction 1; intros I; [exact I | |right; auto]. destruct I as [->|I]; [now left | right; auto]. }
  apply N. apply (Q _ _ P). apply in_or_app. left. change b with (fst (b, rs)). now apply in_map.
Qed.
Theorem C95_gone_refuted : exists h1 h2 x y b, observes h1 x /\ observes (h1 ++ Commit b true :: h2) y /\ outbox (run init (h1 ++ Commit b true :: h2)) = [] /\
  inbox (run init (h1 ++ Commit b true :: h2)) = [] /\ forall rs, ~ In (b, rs) (sent (run init (h1 ++ Commit b true :: h2))).
Proof.
  exists [Connect 10 1; Add 1 true], [Remove 1; Service true 0; Add 2 true; Service true 0; Service true 0], 1, 2, 7.
  unfold observes. cbn. repeat split; try lia; auto.
Qed.

Print Assumptions C95_recipients.
Print Assumptions C95_sent_partial.
