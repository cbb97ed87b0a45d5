(** Theorems about the observer of committed batches (C65). *)
From Coq Require Import List Arith Bool Lia.
From Verif Require Import Observer_Model Observer_Spec Observer_Proofs.
Import ListNotations.

(** C65: what is applied follows what was applied before, without gap, overlap or repetition. Missing: where
    it starts, and ledgers other than one (C65_gap_refuted, C65_ledgers_refuted). *)
Theorem C65_order_partial : forall quorum ms o, 1 <= quorum -> numbered ms ->
  run quorum init ms = Some o -> follow (o_applied o).
Proof. intros quorum ms o Q NU R. destruct (run_good quorum ms o Q R) as (_ & _ & _ & F). apply F. intros b x I. specialize (NU b x I). lia. Qed.
(** C65: for everything applied a quorum of senders told of one and the same batch with its first number,
    and somebody sent what was applied. Missing: that these are the same batch (C65_forged_refuted). *)
Theorem C65_quorum_partial : forall quorum ms o b, 1 <= quorum ->
  run quorum init ms = Some o -> In b (o_applied o) ->
  (exists s, In (b, s) ms) /\ exists c, b_start c = b_start b /\ sent_by quorum ms c.
Proof. intros quorum ms o b Q R I. destruct (run_good quorum ms o Q R) as (_ & W & _). exact (W b I). Qed.
(** C65: if the messages tell of one history, a quorum of senders sent what was applied *)
Theorem C65_genuine_partial : forall quorum ms o b, 1 <= quorum -> one_history ms ->
  run quorum init ms = Some o -> In b (o_applied o) -> sent_by quorum ms b.
Proof.
  intros quorum ms o b Q OH R I. destruct (C65_quorum_partial quorum ms o b Q R I) as ((s & S1) & c & E & SB). destruct SB as (ss & N & L & A).
  assert (c = b). { destruct ss as [|t ss]; [cbn in L; lia|]. exact (proj1 (OH c t b s (A t (or_introl eq_refl)) S1) E). }
  subst c. exists ss. auto.
Qed.
(** C65: then no message makes it fail *)
Theorem C65_no_exception_partial : forall quorum ms, numbered ms -> one_history ms -> exists o, run quorum init ms = Some o.
Proof. intros quorum ms NU OH. destruct (run_clean quorum ms NU OH) as (o & R & _). exists o. exact R. Qed.

Definition begun (k : nat) (o : obs) : Prop :=
  (o_last o = 0 /\ o_applied o = [] /\ hd_error (o_heap o) = Some k /\ get k (o_batches o) <> None) \/ exists c, hd_error (o_applied o) = Some c /\ b_start c = k.
Lemma begun_apply : forall q k o b o', begun k o -> can_apply q o b = Some true -> do_apply_data o b = Some o' -> begun k o'.
Proof.
  intros q k o b o' H C D. unfold do_apply_data in D. destruct (get (b_start b) (o_batches o)) as [m|] eqn:GB; [|discriminate]. destruct (o_heap o) as [|h hs] eqn:EH; [discriminate|]. injection D as <-. right.
  destruct H as [(L & A & HD & G)|(c & A & E)]; cbn [o_applied].
  - exists b. rewrite A. split; [reflexivity|]. unfold can_apply in C. rewrite L, EH in C. rewrite EH in HD. cbn in HD, C. injection HD as ->. destruct (Nat.eqb_spec (b_start b) k) as [E|_]; [exact E|discriminate].
  - exists c. split; [|exact E]. destruct (o_applied o); [discriminate|exact A].
Qed.
Lemma begun_stashed : forall q fuel k o o', begun k o -> process_stashed q fuel o = Some o' -> begun k o'.
Proof.
  intros q fuel k. induction fuel as [|fuel IH]; intros o o' H P; cbn in P.
  - destruct (o_batches o) as [|p l]; [injection P as <-; exact H|]. destruct (o_heap o) as [|h hs]; [injection P as <-; exact H|]. destruct (get h (p :: l)) as [[|[x b] m]|]; try discriminate.
    destruct (can_apply q o b) as [[|]|]; [|injection P as <-; exact H|discriminate]. destruct (do_apply_data o b); discriminate.
  - destruct (o_batches o) as [|p l]; [injection P as <-; exact H|]. destruct (o_heap o) as [|h hs]; [injection P as <-; exact H|]. destruct (get h (p :: l)) as [[|[x b] m]|]; try discriminate.
    destruct (can_apply q o b) as [[|]|] eqn:C; [|injection P as <-; exact H|discriminate]. destruct (do_apply_data o b) as [o1|] eqn:D; [|discriminate]. exact (IH o1 o' (begun_apply q k o b o1 H C D) P).
Qed.
Lemma begun_add : forall k o b x, begun k o -> k <= b_start b -> begun k (add_batch o b x).
Proof.
  intros k o b x H L. unfold add_batch. destruct H as [(L0 & A & HD & G)|(c & A & E)]; [|right; exists c; destruct (get (b_start b) (o_batches o)); auto]. left.
  destruct (get (b_start b) (o_batches o)) as [m|] eqn:GB; cbn; rewrite get_set.
  - destruct (Nat.eqb_spec (b_start b) k); repeat split; auto; discriminate.
  - destruct (Nat.eqb_spec (b_start b) k) as [E|NE]; [rewrite E in GB; congruence|]. repeat split; auto. destruct (o_heap o) as [|h hs]; [discriminate|]. cbn in HD |- *. injection HD as ->. destruct (Nat.leb_spec (b_start b) k); [lia|reflexivity].
Qed.
Lemma begun_step : forall q k o b x o', begun k o -> k <= b_start b -> apply_data q o b x = Some o' -> begun k o'.
Proof.
  intros q k o b x o' H L A. unfold apply_data in A. destruct (can_process o b); cbn [negb] in A; [|injection A as <-; exact H]. pose proof (begun_add k o b x H L) as H1.
  destruct (can_apply q (add_batch o b x) b) as [[|]|] eqn:C; [|injection A as <-; exact H1|discriminate]. destruct (do_apply_data (add_batch o b x) b) as [o2|] eqn:D; [|discriminate].
  exact (begun_stashed _ _ _ _ _ (begun_apply q k _ b o2 H1 C D) A).
Qed.
Lemma begun_run : forall q k ms o o', begun k o -> (forall b x, In (b, x) ms -> k <= b_start b) -> run q o ms = Some o' -> begun k o'.
Proof.
  intros q k ms. induction ms as [|[b x] ms IH]; intros o o' H L R; cbn in R; [injection R as <-; exact H|]. destruct (apply_data q o b x) as [o1|] eqn:A; [|discriminate].
  apply (IH o1 o'); [exact (begun_step q k o b x o1 H (L b x (or_introl eq_refl)) A) | intros c y I; apply (L c y); right; exact I | exact R].
Qed.
Lemma begun_first : forall q b x o, apply_data q init b x = Some o -> begun (b_start b) o.
Proof.
  intros q b x o A. unfold apply_data in A. cbn [can_process init o_last Nat.eqb orb negb] in A.
  assert (H : begun (b_start b) (add_batch init b x)) by (left; unfold add_batch; cbn; rewrite Nat.eqb_refl; repeat split; discriminate).
  destruct (can_apply q (add_batch init b x) b) as [[|]|] eqn:C; [|injection A as <-; exact H|discriminate]. destruct (do_apply_data (add_batch init b x) b) as [o2|] eqn:D; [|discriminate].
  exact (begun_stashed _ _ _ _ _ (begun_apply q _ _ b o2 H C D) A).
Qed.
Lemma same_chain : forall l1 l2 a, follow (a :: l1) -> follow (a :: l2) -> (forall b c, In b l1 -> In c l2 -> b_start b = b_start c -> b = c) ->
  (exists r, l1 = l2 ++ r) \/ (exists c r, l2 = l1 ++ c :: r /\ b_start c = match rev l1 with [] => b_end a | d :: _ => b_end d end + 1).
Proof.
  induction l1 as [|b l1 IH]; intros l2 a F1 F2 J.
  - destruct l2 as [|c l2]; [left; exists []; reflexivity|]. right. exists c, l2. split; [reflexivity|]. exact (proj1 F2).
  - destruct l2 as [|c l2]; [left; exists (b :: l1); reflexivity|]. destruct F1 as [E1 F1], F2 as [E2 F2]. assert (b = c) by (apply J; [left; reflexivity|left; reflexivity|congruence]). subst c.
    destruct (IH l2 b F1 F2) as [(r & ->)|(c & r & -> & E)]; [intros x y X Y; apply J; right; assumption | left; exists r; reflexivity | right]. exists c, r. split; [reflexivity|]. cbn [rev]. destruct (rev l1); exact E.
Qed.
(** C65: if the messages tell of one history and the first one to come is about its lowest batch, every
    batch that follows with a quorum of senders is applied, whatever the order of the messages. Missing: the
    cases without these conditions (C65_gap_refuted, C65_blocked_refuted, C65_exception_refuted). *)
Theorem C65_complete_partial : forall quorum b0 s0 ms l, 1 <= quorum -> numbered ((b0, s0) :: ms) -> one_history ((b0, s0) :: ms) ->
  (forall b s, In (b, s) ms -> b_start b0 <= b_start b) ->
  follow (b0 :: l) -> (forall b, In b (b0 :: l) -> sent_by quorum ((b0, s0) :: ms) b) ->
  exists o rest, run quorum init ((b0, s0) :: ms) = Some o /\ o_applied o = b0 :: l ++ rest.
Proof.
  intros quorum b0 s0 ms l Q NU OH LOW FL SB. destruct (run_clean quorum _ NU OH) as (o & R & C). exists o. pose proof (run_good quorum _ o Q R) as (_ & W & L & F).
  assert (FO : follow (o_applied o)) by (apply F; intros b x I; specialize (NU b x I); lia). clear F.
  assert (BG : begun (b_start b0) o).
  { cbn [run] in R. destruct (apply_data quorum init b0 s0) as [o1|] eqn:A; [|discriminate]. exact (begun_run quorum (b_start b0) ms o1 o (begun_first _ _ _ _ A) LOW R). }
  assert (SENT : forall b, In b (b0 :: l) -> exists x, In (b, x) ((b0, s0) :: ms)).
  { intros b I. destruct (SB b I) as (ss & _ & LL & A). destruct ss as [|x ss]; [cbn in LL; lia|]. exists x. exact (A x (or_introl eq_refl)). }
  destruct BG as [(L0 & A0 & HD & G)|(c & A0 & E)].
  - exfalso. apply (clean_none quorum _ o b0 OH C (SB b0 (or_introl eq_refl))); [rewrite L0; specialize (NU b0 s0 (or_introl eq_refl)); lia | exists s0; left; reflexivity | rewrite L0; exact HD].
  - destruct (o_applied o) as [|c' l1] eqn:AP; [discriminate|]. cbn in A0. injection A0 as ->. destruct (W c (or_introl eq_refl)) as ((x & X) & _). assert (c = b0) by exact (proj1 (OH c x b0 s0 X (or_introl eq_refl)) E). subst c.
    destruct (same_chain l1 l b0 FO FL) as [(r & ->)|(c & r & -> & EC)].
    + intros b c B CC EE. destruct (W b (or_intror B)) as ((y & Y) & _). destruct (SENT c (or_intror CC)) as (z & Z). exact (proj1 (OH b y c z Y Z) EE).
    + exists r. split; [exact R | reflexivity].
    + exfalso. assert (LE : o_last o = match rev l1 with [] => b_end b0 | d :: _ => b_end d end) by (cbn [rev] in L; destruct (rev l1); exact L). rewrite <- LE in EC.
      assert (IC : In c (b0 :: l1 ++ c :: r)) by (right; apply in_or_app; right; left; reflexivity).
      assert (NZ : o_last o <> 0).
      { rewrite LE. destruct (rev l1) as [|d t] eqn:RV; [specialize (NU b0 s0 (or_introl eq_refl)); lia|]. assert (ID : In d (b0 :: l1)) by (right; apply in_rev; rewrite RV; left; reflexivity). destruct (W d ID) as ((y & Y) & _). specialize (NU d y Y). lia. }
      apply (clean_none quorum _ o c OH C (SB c IC)); [lia | exact (SENT c IC) |]. destruct (Nat.eqb_spec (o_last o) 0); [congruence|]. f_equal. lia.
Qed.

(** Examples: a quorum of 2; three batches; the third arrives before the second *)
Definition B1 := mkB 1 2 1 7. Definition B2 := mkB 3 3 1 8. Definition B3 := mkB 4 6 1 9.
Definition calls := [(B1, 1); (B3, 1); (B1, 2); (B3, 2); (B1, 3); (B2, 3); (B3, 3); (B2, 1)].
Lemma one_calls : one_history calls.
Proof. intros b s c t I J. cbn in I, J. repeat (destruct I as [I|I]; [injection I as <- <-; repeat (destruct J as [J|J]; [injection J as <- <-; cbn; split; [try reflexivity; try lia|lia]|]); destruct J|]). destruct I. Qed.
Lemma numbered_calls : numbered calls.
Proof. intros b s I. cbn in I. repeat (destruct I as [I|I]; [injection I as <- <-; cbn; lia|]). destruct I. Qed.
Example C65_order_example : exists o, run 2 init calls = Some o /\ o_applied o = [B1; B2; B3].
Proof. eexists. split; vm_compute; reflexivity. Qed.
Example C65_complete_example : exists o rest, run 2 init calls = Some o /\ o_applied o = B1 :: [B2; B3] ++ rest.
Proof.
  apply (C65_complete_partial 2 B1 1 (tl calls) [B2; B3]); [lia | exact numbered_calls | exact one_calls | | cbn; lia |].
  - intros b s I. cbn in I. repeat (destruct I as [I|I]; [injection I as <- <-; cbn; lia|]). destruct I.
  - intros b [<-|[<-|[<-|[]]]]; [exists [1; 2] | exists [3; 1] | exists [1; 2]]; (split; [repeat constructor; cbn; lia|]); (split; [cbn; lia|]); intros s; cbn; intros [<-|[<-|[]]]; tauto.
Qed.

(** C65 fails with one faulty sender: its batch for a later number, noted first, is applied in place of the
    one the quorum sent (lines 155-169) *)
Theorem C65_forged_refuted : exists quorum faulty ms o b,
  numbered ms /\ one_history (filter (fun p => negb (snd p =? faulty)) ms) /\ 2 <= quorum /\
  run quorum init ms = Some o /\ In b (o_applied o) /\ (forall s, In (b, s) ms -> s = faulty).
Proof.
  exists 2, 4, [(B1, 1); (mkB 3 3 1 66, 4); (B2, 1); (B2, 2); (B1, 2)], (mkO 3 [] [] [B1; mkB 3 3 1 66]), (mkB 3 3 1 66). split; [|split; [|split; [lia|split; [vm_compute; reflexivity|split; [cbn; auto|]]]]].
  - intros b s I. cbn in I. repeat (destruct I as [I|I]; [injection I as <- <-; cbn; lia|]). destruct I.
  - intros b s c t I J. cbn in I, J. repeat (destruct I as [I|I]; [injection I as <- <-; repeat (destruct J as [J|J]; [injection J as <- <-; cbn; split; [try reflexivity; try lia|lia]|]); destruct J|]). destruct I.
  - intros s I. cbn in I. repeat (destruct I as [I|I]; [injection I; intros; subst; try reflexivity; discriminate|]). destruct I.
Qed.
(** C65 fails with one faulty sender: a batch with a number inside one that is applied makes the observer
    fail later (KeyError in line 161), when every correct sender tells of one history *)
Theorem C65_exception_refuted : exists quorum faulty ms,
  numbered ms /\ one_history (filter (fun p => negb (snd p =? faulty)) ms) /\ 2 <= quorum /\ run quorum init ms = None.
Proof.
  exists 2, 4, [(mkB 1 4 1 7, 1); (mkB 3 3 1 66, 4); (mkB 1 4 1 7, 2); (mkB 5 5 1 8, 1); (mkB 5 5 1 8, 2)]. split; [|split; [|split; [lia|vm_compute; reflexivity]]].
  - intros b s I. cbn in I. repeat (destruct I as [I|I]; [injection I as <- <-; cbn; lia|]). destruct I.
  - intros b s c t I J. cbn in I, J. repeat (destruct I as [I|I]; [injection I as <- <-; repeat (destruct J as [J|J]; [injection J as <- <-; cbn; split; [try reflexivity; try lia|lia]|]); destruct J|]). destruct I.
Qed.
(** C65 fails without any faulty sender: numbers count in one ledger, the observer keeps one number for all
    ledgers (lines 78-86), so batches of another ledger are left out; here each is sent by all three *)
Theorem C65_ledgers_refuted : exists quorum ms o b, 2 <= quorum /\
  (forall l, one_history (filter (fun p => b_ledger (fst p) =? l) ms)) /\ numbered ms /\
  sent_by 3 ms b /\ (forall c s, In (c, s) ms -> b_ledger c = b_ledger b -> b_start b <= b_start c) /\
  run quorum init ms = Some o /\ ~ In b (o_applied o) /\ get (b_start b) (o_batches o) = None.
Proof.
  exists 2, [(mkB 1 5 1 7, 1); (mkB 1 5 1 7, 2); (mkB 1 5 1 7, 3); (mkB 1 1 0 8, 1); (mkB 1 1 0 8, 2); (mkB 1 1 0 8, 3)], (mkO 5 [] [] [mkB 1 5 1 7]), (mkB 1 1 0 8).
  split; [lia|]. split; [|split; [|split; [|split; [|split; [vm_compute; reflexivity|split; [|reflexivity]]]]]].
  - intros l b s c t I J. apply filter_In in I, J. destruct I as [I EI], J as [J EJ]. apply Nat.eqb_eq in EI, EJ. cbn in I, J, EI, EJ.
    repeat (destruct I as [I|I]; [injection I as <- <-; repeat (destruct J as [J|J]; [injection J as <- <-; cbn in *; split; [try reflexivity; try lia|lia]|]); destruct J|]). destruct I.
  - intros b s I. cbn in I. repeat (destruct I as [I|I]; [injection I as <- <-; cbn; lia|]). destruct I.
  - exists [1; 2; 3]. split; [repeat constructor; cbn; lia|]. split; [cbn; lia|]. intros s. cbn. intros [<-|[<-|[<-|[]]]]; tauto.
  - intros c s I. cbn in I. repeat (destruct I as [I|I]; [injection I as <- <-; cbn; lia|]). destruct I.
  - cbn. intros [E|[]]. discriminate.
Qed.
(** C65 fails without any faulty sender: an empty observer that hears of the second batch first skips the
    first one *)
Theorem C65_gap_refuted : exists quorum ms o b, 2 <= quorum /\ numbered ms /\ one_history ms /\
  sent_by 3 ms b /\ b_start b = 1 /\ run quorum init ms = Some o /\ o_applied o <> [] /\ ~ In b (o_applied o).
Proof.
  exists 2, [(B2, 1); (B2, 2); (B1, 1); (B1, 2); (B1, 3)], (mkO 3 [] [] [B2]), B1. split; [lia|]. split; [|split; [|split; [|split; [reflexivity|split; [vm_compute; reflexivity|split; [discriminate|]]]]]].
  - intros b s I. cbn in I. repeat (destruct I as [I|I]; [injection I as <- <-; cbn; lia|]). destruct I.
  - intros b s c t I J. cbn in I, J. repeat (destruct I as [I|I]; [injection I as <- <-; repeat (destruct J as [J|J]; [injection J as <- <-; cbn; split; [try reflexivity; try lia|lia]|]); destruct J|]). destruct I.
  - exists [1; 2; 3]. split; [repeat constructor; cbn; lia|]. split; [cbn; lia|]. intros s. cbn. intros [<-|[<-|[<-|[]]]]; tauto.
  - cbn. intros [E|[]]. discriminate.
Qed.
(** C65 fails with one faulty sender: one message with a lower number than all others, to an empty observer,
    and it applies nothing ever after *)
Theorem C65_blocked_refuted : forall quorum b s ms, 2 <= quorum -> (forall c t, In (c, t) ms -> b_start b < b_start c) ->
  exists o, run quorum init ((b, s) :: ms) = Some o /\ o_applied o = [].
Proof.
  intros quorum b s ms Q LOW. cbn [run].
  assert (A1 : apply_data quorum init b s = Some (add_batch init b s)).
  { unfold apply_data. cbn [can_process init o_last Nat.eqb orb negb]. unfold can_apply, add_batch. cbn. rewrite Nat.eqb_refl. cbn. destruct quorum as [|[|q]]; [lia|lia|]. reflexivity. }
  rewrite A1. assert (H : o_last (add_batch init b s) = 0 /\ o_applied (add_batch init b s) = [] /\ hd_error (o_heap (add_batch init b s)) = Some (b_start b) /\ get (b_start b) (o_batches (add_batch init b s)) <> None).
  { unfold add_batch. cbn. rewrite Nat.eqb_refl. repeat split. discriminate. }
  revert H. generalize (add_batch init b s). clear A1. induction ms as [|[c t] ms IH]; intros o (L & A & HD & G); cbn; [exists o; auto|].
  assert (LC := LOW c t (or_introl eq_refl)).
  assert (H : o_last (add_batch o c t) = 0 /\ o_applied (add_batch o c t) = [] /\ hd_error (o_heap (add_batch o c t)) = Some (b_start b) /\ get (b_start b) (o_batches (add_batch o c t)) <> None).
  { unfold add_batch. destruct (get (b_start c) (o_batches o)); cbn; rewrite get_set; (destruct (Nat.eqb_spec (b_start c) (b_start b)); [lia|]); repeat split; auto. destruct (o_heap o) as [|h hs]; [discriminate|]. cbn in HD |- *. injection HD as ->. destruct (Nat.leb_spec (b_start c) (b_start b)); [lia|reflexivity]. }
  unfold apply_data, can_process. rewrite L. cbn [Nat.eqb orb negb]. destruct H as (L' & A' & HD' & G'). unfold can_apply. rewrite L', HD'. cbn [Nat.eqb]. destruct (Nat.eqb_spec (b_start c) (b_start b)) as [E|_]; [lia|]. cbn [negb].
  apply IH; [intros d u I; apply (LOW d u); right; exact I | auto].
Qed.
Example C65_blocked_example : exists o, run 2 init ((mkB 1 1 1 66, 4) :: [(B2, 1); (B2, 2); (B3, 1); (B3, 2)]) = Some o /\ o_applied o = [].
Proof. apply C65_blocked_refuted; [lia|]. intros c t I. cbn in I. repeat (destruct I as [I|I]; [injection I as <- <-; cbn; lia|]). destruct I. Qed.

Print Assumptions C65_order_partial.
Print Assumptions C65_quorum_partial.
Print Assumptions C65_genuine_partial.
Print Assumptions C65_no_exception_partial.
Print Assumptions C65_complete_partial.
Print Assumptions C65_forged_refuted.
Print Assumptions C65_exception_refuted.
Print Assumptions C65_ledgers_refuted.
Print Assumptions C65_gap_refuted.
Print Assumptions C65_blocked_refuted.
