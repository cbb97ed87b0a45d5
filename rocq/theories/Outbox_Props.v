(** C96: what the replicas hand to their node. *)
From Coq Require Import List Arith Bool Lia.
From Verif Require Import Outbox_Model Outbox_Spec Outbox_Proofs.
Import ListNotations.

Lemma wf_init : wf init.
Proof. exact I. Qed.

(** While a replica is not removed, each message it hands over reaches the node once, or waits; Ordereds stay in their order, and so do
    the other messages. *)
Theorem C96_conserved : forall h i, ~ In (Remove i) h -> let s := run init h in
  filter is_ord (puts i false h) = filter is_ord (handed i (trace s)) ++ filter is_ord (waiting i (boxes s)) /\
  filter not_ord (puts i false h) = filter not_ord (handed i (trace s)) ++ filter not_ord (waiting i (boxes s)).
Proof.
  intros h i N s. pose proof (own_run i is_ord h init wf_init N (or_introl eq_refl)) as A.
  pose proof (own_run i not_ord h init wf_init N (or_intror (or_introl eq_refl))) as B. cbn in A, B. split; [now rewrite <- A | now rewrite <- B].
Qed.
(** If no catch-up starts, all stay in their order. *)
Theorem C96_order : forall h i, ~ In (Remove i) h -> ~ In Catchup h -> let s := run init h in
  puts i false h = handed i (trace s) ++ waiting i (boxes s).
Proof.
  intros h i N C s. pose proof (own_run i (fun _ => true) h init wf_init N (or_intror (or_intror C))) as A. unfold own in A. cbn in A.
  assert (T : forall l : list msg, filter (fun _ => true) l = l) by (clear; intros l; induction l as [|a l IH]; [reflexivity | cbn; now rewrite IH]).
  rewrite !T in A. now rewrite <- A.
Qed.
Example C96_order_example :
  let h := [Add 0; Add 1; Ready true; Put 0 (Wire 1); Put 1 (Wire 2); Put 0 (Ord 0 1); Put 0 (Wire 3); Put 1 (Exn 9); Turn (Some 3); Turn (Some 2); Catchup] in
  map (fun e => (e_inst e, e_msg e, e_out e)) (trace (run init h)) =
    [(0, Wire 1, Sent); (0, Ord 0 1, Processed); (1, Wire 2, Sent); (1, Exn 9, Raised); (0, Wire 3, Sent)].
Proof. vm_compute. reflexivity. Qed.
(** What becomes of each. *)
Theorem C96_outcome : forall h e, In e (trace (run init h)) -> fits (e_msg e) (e_out e).
Proof. intros h e H. assert (F := fits_run h init wf_init (Forall_nil _)). rewrite Forall_forall in F. exact (F e H). Qed.

(** Full claim: "each batch that an instance ordered is processed by the node".  Proved: if the node takes part whenever it is handed something. *)
Theorem C96_processed_partial : forall h i, ~ In (Remove i) h ->
  (forall h1 o h2, h = h1 ++ o :: h2 -> hands_over o = true -> ready false h1 = true) -> let s := run init h in
  filter is_ord (puts i false h) = processed i (trace s) ++ filter is_ord (waiting i (boxes s)).
Proof.
  intros h i N R s. destruct (C96_conserved h i N) as [A _]. rewrite A. f_equal. symmetry. apply processed_good.
  apply (good_run h init wf_init (Forall_nil _)). exact R.
Qed.
(** At the start of catch-up nothing that was ordered is left behind. *)
Theorem C96_catchup : forall h i, filter is_ord (waiting i (boxes (run init (h ++ [Catchup])))) = [].
Proof.
  intros h i. unfold run. rewrite fold_left_app. cbn [fold_left step boxes]. unfold force. cbn [boxes]. rewrite waiting_map, filter_filter.
  apply filter_false. intros x. apply andb_negb_r.
Qed.
Example C96_processed_example :
  let h := [Add 0; Ready true; Put 0 (Ord 0 1); Put 0 (Wire 5); Put 0 (Ord 0 2); Turn (Some 1); Catchup; Ready true; Put 0 (Ord 0 3)] in
  processed 0 (trace (run init h)) = [Ord 0 1; Ord 0 2] /\ waiting 0 (boxes (run init h)) = [Wire 5; Ord 0 3].
Proof. vm_compute. split; reflexivity. Qed.
(** It is not otherwise: an Ordered that the node meets while it does not take part is dropped, whatever comes later. *)
Theorem C96_dropped_refuted : forall h, ~ In (Put 0 (Ord 0 1)) h ->
  let h := [Add 0; Ready true; Put 0 (Ord 0 1); Ready false; Turn None] ++ h in In (Ord 0 1) (puts 0 false h) /\
  ~ In (Entry 0 (Ord 0 1) Processed) (trace (run init h)) /\ ~ In (Ord 0 1) (waiting 0 (boxes (run init h))).
Proof.
  intros h N h'. split; [left; reflexivity|]. unfold h', run. rewrite fold_left_app.
  set (s := fold_left step [Add 0; Ready true; Put 0 (Ord 0 1); Ready false; Turn None] init).
  assert (P : ~ In (Entry 0 (Ord 0 1) Processed) (trace s) /\ ~ In (Ord 0 1) (waiting 0 (boxes s)) /\ wf s).
  { split; [vm_compute; intuition discriminate|]. split; [vm_compute; tauto|]. apply (wf_run [Add 0; Ready true; Put 0 (Ord 0 1); Ready false; Turn None] init I). }
  clearbody s. revert s P. clear h'. induction h as [|o h IH]; intros s (A & B & W); [now split|].
  cbn [In] in N. cbn [fold_left]. apply IH; [tauto|]. split; [|split; [|now apply wf_step]].
  - intros H. destruct (fits_step s o W) as (t & T & _). rewrite T in H. apply in_app_or in H as [H|H]; [now apply A|].
    destruct o as [j m|e x|e|limit| |b|j|j]; cbn [step trace] in T; try (rewrite <- app_nil_r in T at 1; apply app_inv_head in T as <-; now destruct H).
    + destruct (turn_spec s limit W) as (t' & T' & _ & C & _). rewrite T in T'. apply app_inv_head in T' as <-. apply B. rewrite <- (C 0). apply in_or_app. left.
      unfold handed. apply in_map_iff. exists (Entry 0 (Ord 0 1) Processed). split; [reflexivity|]. apply filter_In. now split.
    + unfold force in T. cbn [trace] in T. apply app_inv_head in T as <-. apply B.
      assert (C := force_handed (can s) 0 (boxes s) W). apply (fun p => proj1 (proj1 (filter_In is_ord (Ord 0 1) (waiting 0 (boxes s))) p)). rewrite <- C.
      unfold handed. apply in_map_iff. exists (Entry 0 (Ord 0 1) Processed). split; [reflexivity|]. apply filter_In. now split.
    + destruct (has j (boxes s)); cbn [trace] in T; rewrite <- app_nil_r in T at 1; apply app_inv_head in T as <-; now destruct H.
  - intros H. destruct o as [j m|e x|e|limit| |b|j|j]; cbn [step boxes] in H; try (now apply B).
    + rewrite waiting_put in H by exact W. apply in_app_or in H as [H|H]; [now apply B|]. destruct (Nat.eqb_spec j 0) as [->|]; [|destruct H].
      destruct (has 0 (boxes s)); [|destruct H]. destruct H as [->|[]]. tauto.
    + destruct (turn_spec s limit W) as (t' & _ & _ & C & _). apply B. rewrite <- (C 0). apply in_or_app. now right.
    + unfold force in H. cbn [boxes] in H. rewrite waiting_map in H. apply filter_In in H as [H _]. now apply B.
    + destruct (has j (boxes s)) eqn:E; [now apply B|]. cbn [boxes] in H. rewrite waiting_add in H; [now apply B|]. rewrite <- has_in. now rewrite E.
    + destruct (Nat.eq_dec j 0) as [->|M].
      * rewrite waiting_none in H; [destruct H|]. intros X. apply in_map_iff in X as (p & E & F). apply filter_In in F as [_ F]. now rewrite E in F.
      * rewrite waiting_filter in H by congruence. now apply B.
Qed.

(** What a turn takes from each instance, if no exception waits: everything, or as many as its share of the limit, rounded, but at least one. *)
Theorem C96_share : forall h limit, let s := run init h in calm s -> exists p, (forall i, waiting i (boxes (run s [Turn (Some limit)])) = skipn p (waiting i (boxes s))) /\
  1 <= p /\ let n := length (instances s) in (1 <= n -> 2 * limit <= 2 * n * p + n /\ (p = 1 \/ 2 * n * p <= 2 * limit + n)).
Proof.
  intros h limit s C. assert (W : wf s) by (apply wf_run; exact wf_init). destruct (per_replica (Some limit) (length (boxes s))) as [p|] eqn:P; [|discriminate].
  exists p. split; [|split; [now apply (per_pos (Some limit) (length (boxes s)))|]].
  - intros i. cbn [run fold_left step]. rewrite turn_calm, waiting_rest, P by assumption. reflexivity.
  - unfold instances. rewrite map_length. intros N. destruct (rounded_near limit (length (boxes s)) N) as [A B]. cbn [per_replica] in P. injection P as <-.
    destruct (Nat.eqb_spec (rounded limit (length (boxes s))) 0) as [E|E]; [|auto]. rewrite E in *. split; [lia | now left].
Qed.
Theorem C96_unlimited : forall h, let s := run init h in calm s -> forall i, waiting i (boxes (run s [Turn None])) = [].
Proof. intros h s C i. assert (W : wf s) by (apply wf_run; exact wf_init). cbn [run fold_left step]. rewrite turn_calm, waiting_rest by assumption. reflexivity. Qed.
(** So each waits for as many turns as there are messages before it, at most, whatever the other instances have to send. *)
Theorem C96_wait : forall h limits i, let s := run init h in calm s ->
  length (waiting i (boxes (run s (map Turn limits)))) <= length (waiting i (boxes s)) - length limits.
Proof.
  intros h limits i s C. assert (W : wf s) by (apply wf_run; exact wf_init). clearbody s. revert s C W. induction limits as [|l ls IH]; intros s C W; [cbn; lia|].
  cbn [map run fold_left step length]. specialize (IH (turn s l) (calm_turn s l W C) (wf_step s (Turn l) W)). unfold run in IH.
  rewrite turn_calm, waiting_rest in IH by assumption. etransitivity; [exact IH|].
  destruct (per_replica l (length (boxes s))) as [p|] eqn:P; cbn [rest].
  - apply per_pos in P. rewrite skipn_length. lia.
  - cbn. lia.
Qed.
Example C96_wait_example :
  let s := run init [Add 0; Add 1; Add 2; Put 0 (Wire 1); Put 0 (Wire 2); Put 0 (Wire 3); Put 0 (Wire 4); Put 0 (Wire 5); Put 1 (Wire 6); Put 2 (Ord 0 1)] in
  length (waiting 0 (boxes (run s [Turn (Some 5)]))) = 3 /\ length (waiting 0 (boxes (run s [Turn (Some 0); Turn (Some 1)]))) = 3.
Proof. vm_compute. split; reflexivity. Qed.

(** Full claim: "a turn takes no more than the limit".  Proved: no more than the limit and half the number of instances, or one each. *)
Theorem C96_limit_partial : forall h limit, let s := run init h in let n := length (instances s) in
  2 * (length (trace (run s [Turn (Some limit)])) - length (trace s)) <= Nat.max (2 * n) (2 * limit + n).
Proof.
  intros h limit s n. cbn [run fold_left step]. unfold turn. destruct (per_replica (Some limit) (length (boxes s))) as [p|] eqn:P; [|discriminate].
  destruct (serve_all _ _ _ _) as [[[bs snd] t] x] eqn:E. cbn [trace]. rewrite app_length. apply serve_all_max in E; [|now apply (per_pos (Some limit) (length (boxes s)))].
  unfold n, instances. rewrite map_length. destruct (Nat.eq_dec (length (boxes s)) 0) as [Z|Z]; [rewrite Z in E; lia|].
  destruct (rounded_near limit (length (boxes s))) as [A _]; [lia|]. cbn [per_replica] in P. injection P as <-.
  destruct (Nat.eqb_spec (rounded limit (length (boxes s))) 0); lia.
Qed.
(** It does take more: six of a limit of five with three instances; as many as there are instances with a limit of one. *)
Theorem C96_limit_refuted :
  let s := run init [Add 0; Add 1; Add 2; Put 0 (Wire 1); Put 0 (Wire 2); Put 1 (Wire 3); Put 1 (Wire 4); Put 2 (Wire 5); Put 2 (Wire 6)] in
  length (trace (run s [Turn (Some 5)])) = 6 /\ length (trace (run s [Turn (Some 1)])) = 3.
Proof. vm_compute. split; reflexivity. Qed.
(** And an exception of one instance keeps the node from those after it, however long they wait. *)
Theorem C96_blocked_refuted : forall n limits, length limits = n ->
  let s := run init (Add 0 :: Add 1 :: Put 1 (Wire 7) :: map (fun x => Put 0 (Exn x)) (seq 0 n)) in
  waiting 1 (boxes (run s (map Turn limits))) = [Wire 7].
Proof.
  intros n limits L. cbn zeta. unfold run. cbn [fold_left].
  assert (G : forall xs b, fold_left step (map (fun x => Put 0 (Exn x)) xs) (Node [(0, b); (1, [Wire 7])] [] false []) =
    Node [(0, b ++ map Exn xs); (1, [Wire 7])] [] false []).
  { intros xs. induction xs as [|x xs IH]; intros b; [cbn; now rewrite app_nil_r|]. cbn [map fold_left]. 
    change (step (Node [(0, b); (1, [Wire 7])] [] false []) (Put 0 (Exn x))) with (Node [(0, b ++ [Exn x]); (1, [Wire 7])] [] false []).
    rewrite IH, <- app_assoc. reflexivity. }
  change (step (step (step init (Add 0)) (Add 1)) (Put 1 (Wire 7))) with (Node [(0, []); (1, [Wire 7])] [] false []). rewrite G. clear G. cbn [app].
  assert (G : forall ls a t, waiting 1 (boxes (fold_left step (map Turn ls) (Node [(0, map Exn (seq a (length ls))); (1, [Wire 7])] [] false t))) = [Wire 7]).
  { clear. intros ls. induction ls as [|l ls IH]; intros a t; [reflexivity|]. cbn [length seq map fold_left].
    change (step (Node [(0, Exn a :: map Exn (seq (S a) (length ls))); (1, [Wire 7])] [] false t) (Turn l)) with
      (Node [(0, map Exn (seq (S a) (length ls))); (1, [Wire 7])] [] false (t ++ [Entry 0 (Exn a) Raised])). apply IH. }
  subst n. apply G.
Qed.

(** A Reject goes to the client that sent the request to this node, and only once for each time the request came. *)
Theorem C96_client : forall h i d c, In (Entry i (Rej d) (Answered c)) (trace (run init h)) -> In (Client d c) h.
Proof. intros h i d c H. destruct (proj2 (source_run h init) i d c H) as [[]|[[]|X]]. exact X. Qed.
Theorem C96_once : forall h d, length (filter (answer_to d) (trace (run init h))) <= length (filter (asks d) h).
Proof. intros h d. pose proof (answers_run d h init) as H. unfold answers at 1 in H. cbn in H. lia. Qed.
(** If the node knows the client when a turn hands over Rejects of the request, one is answered. *)
Theorem C96_rejected : forall h1 h2 d c limit, forallb (quiet d) h2 = true -> let h := h1 ++ Client d c :: h2 in
  (exists e t, trace (run init (h ++ [Turn limit])) = trace (run init h) ++ t /\ In e t /\ e_msg e = Rej d) ->
  exists i t, trace (run init (h ++ [Turn limit])) = trace (run init h) ++ t /\ In (Entry i (Rej d) (Answered c)) t.
Proof.
  intros h1 h2 d c limit Q h (e & t & T & I & E). unfold run in *. rewrite fold_left_app in *. cbn [fold_left step] in *. set (s := fold_left step h init) in *.
  assert (F : find d (senders s) = Some c).
  { unfold s, h. rewrite fold_left_app. cbn [fold_left]. apply (find_quiet d c h2); [exact Q|]. cbn [step senders]. unfold find. cbn [List.find fst]. now rewrite Nat.eqb_refl. }
  destruct (turn_fair s limit) as (t' & T' & _ & _ & _ & G). rewrite T in T'. apply app_inv_head in T' as <-.
  destruct (G d c F) as [[_ N]|[i J]]; [|now exists i, t]. rewrite Forall_forall in N. now destruct (N e I).
Qed.
Example C96_rejected_example :
  let h := [Add 0; Client 4 10; Client 5 11; Put 0 (Rej 4); Put 0 (Rej 6); Put 0 (Rej 4); Turn None] in
  map e_out (trace (run init h)) = [Answered 10; Unanswered; Unanswered].
Proof. vm_compute. reflexivity. Qed.

Print Assumptions C96_conserved.
Print Assumptions C96_order.
Print Assumptions C96_outcome.
Print Assumptions C96_processed_partial.
Print Assumptions C96_catchup.
Print Assumptions C96_dropped_refuted.
Print Assumptions C96_share.
Print Assumptions C96_unlimited.
Print Assumptions C96_wait.
Print Assumptions C96_limit_partial.
Print Assumptions C96_limit_refuted.
Print Assumptions C96_blocked_refuted.
Print Assumptions C96_client.
Print Assumptions C96_once.
Print Assumptions C96_rejected.
