(** Property C31: the stashing router loses and duplicates no message. *)
From Coq Require Import List Arith ZArith Bool Lia Sorted.
From Verif Require Import Stash_Model Stash_Spec Stash_Proofs.
Import ListNotations.
Local Open Scope Z_scope.

Lemma step_good cf a s : inv cf s -> let s' := step cf s a in inv cf s' /\
  (exists seg, log s' = log s ++ seg) /\
  (st s' = Running -> (forall id, ~ flight s id) -> (forall m, ~ In (LRaise m) (log s')) -> forall id, ~ flight s' id).
Proof.
  intros I. unfold step. set (n := S (length (script s))).
  pose proof (do_act_good cf (process cf n) (process_ok cf n) n a s I) as G.
  set (s1 := do_act cf (process cf n) n a s) in *. clearbody s1. destruct G as [A B C D E].
  destruct (st s1) eqn:S1.
  - refine (conj A (conj B _)). intros _ F _ id X. destruct (E ltac:(unfold is_running; rewrite S1; reflexivity) id X) as (Y & _).
    exact (F id Y).
  - destruct A as [A1 A2 A3 A4]. destruct (A4 S1) as (m & M). refine (conj _ (conj B _)).
    + constructor; simpl; auto; discriminate.
    + intros _ _ Nr. destruct (Nr m M).
  - refine (conj A (conj B _)). congruence.
Qed.
Lemma step_not_raised cf a s : st (step cf s a) <> Raised.
Proof. unfold step. set (s1 := do_act _ _ _ _ _). destruct (st s1) eqn:E; simpl; congruence. Qed.
Lemma run_good cf sc ops : inv cf (run cf sc ops) /\ st (run cf sc ops) <> Raised /\
  (st (run cf sc ops) = Running -> (forall m, ~ In (LRaise m) (log (run cf sc ops))) -> forall id, ~ flight (run cf sc ops) id).
Proof.
  induction ops as [|a ops IH] using rev_ind.
  - refine (conj _ (conj _ _)).
    + constructor; simpl; [reflexivity|reflexivity| |discriminate]. intros l1 x l2 E. destruct l1; discriminate.
    + discriminate.
    + intros _ _ id X. exact X.
  - unfold run in *. rewrite fold_left_app. simpl. destruct IH as (I & N & F). set (s := fold_left (step cf) ops (init sc)) in *. clearbody s.
    destruct (step_good cf a s I) as (I' & (seg & L) & F'). refine (conj I' (conj (step_not_raised cf a s) _)).
    intros R Nr. apply F'; [exact R| |exact Nr]. apply F.
    + destruct (st s) eqn:E; [reflexivity|congruence|]. unfold step, do_act, is_running in R. rewrite E in R. simpl in R. rewrite E in R. congruence.
    + intros m M. apply (Nr m). rewrite L. apply in_or_app. left. exact M.
Qed.

(** ** The theorems: for every behaviour of the handlers and every sequence of calls *)

(** Every step in the life of a message follows the one it should follow: a message arrives
    once; a handler is called with a message that just arrived or was just taken out of a queue;
    it is stashed, discarded, rejected or processed as the result of a call; it is stashed exactly
    when the queue is not full; the messages leave each queue in its order. *)
Theorem C31_lifecycle : forall cf sc ops, log_ok cf (log (run cf sc ops)).
Proof. intros cf sc ops. apply (i_log _ _ (proj1 (run_good cf sc ops))). Qed.

(** The queues hold what was stashed and not taken out, in order. *)
Theorem C31_queues : forall cf sc ops c, get c (queues (run cf sc ops)) = expected cf c (log (run cf sc ops)).
Proof. intros cf sc ops. apply (i_queue _ _ (proj1 (run_good cf sc ops))). Qed.

(** If no handler raised an exception, then after every call from outside each message that
    arrived is in exactly one of these places. *)
Theorem C31_accounted_partial : forall cf sc ops m, let s := run cf sc ops in
  st s = Running -> (forall m', ~ In (LRaise m') (log s)) -> In (LOffer m) (log s) ->
  ((place_of (log s) (m_id m) = Some Processed \/ place_of (log s) (m_id m) = Some Discarded \/
    place_of (log s) (m_id m) = Some Rejected \/ place_of (log s) (m_id m) = Some InInbox) /\
   forall c, ~ In m (get c (queues s))) \/
  (exists c, place_of (log s) (m_id m) = Some (Stashed c) /\ In m (get c (queues s)) /\ NoDup (get c (queues s)) /\
    forall c', c' <> c -> ~ In m (get c' (queues s))).
Proof.
  intros cf sc ops m s R Nr O. destruct (run_good cf sc ops) as (I & _ & F). fold s in I, F. specialize (F R Nr (m_id m)).
  pose proof (log_holds cf (log s) (i_log cf s I)) as H.
  assert (Q : forall c, In m (get c (queues s)) -> place_of (log s) (m_id m) = Some (Stashed c)).
  { intros c X. rewrite (i_queue cf s I) in X. apply (h_place _ _ H). apply in_map, X. }
  pose proof (h_some _ _ H m O) as So. unfold flight in F. destruct (place_of (log s) (m_id m)) as [p|] eqn:P; [|congruence].
  assert (W : (forall c, p <> Stashed c) -> forall c, ~ In m (get c (queues s))).
  { intros Np c X. apply Q in X. injection X as X. exact (Np c X). }
  assert (NF : p <> Failed).
  { intros ->. clear - P Nr. induction (log s) as [|x l IH] using rev_ind; [discriminate|].
    rewrite place_snoc in P. destruct (m_id (fst (about x)) =? m_id m)%nat.
    - injection P as P. destruct x; simpl in P; try discriminate. apply (Nr m0). apply in_or_app. right. left. reflexivity.
    - apply IH; [intros m' M; apply (Nr m'); apply in_or_app; left; exact M|exact P]. }
  destruct p; try (destruct (F Logic.I)); try (left; split; [auto 6|apply W; discriminate]).
  - right. exists c. refine (conj eq_refl (conj _ (conj _ _))).
    + rewrite (i_queue cf s I). pose proof (proj2 (h_place _ _ H c (m_id m)) P) as X. apply in_map_iff in X as (y & Y1 & Y2).
      rewrite (h_unique _ _ H m y O (h_offer _ _ H c y Y2) (eq_sym Y1)). exact Y2.
    + rewrite (i_queue cf s I). apply (NoDup_map_inv m_id). apply (h_nodup _ _ H).
    + intros c' Nc X. apply Q in X. congruence.
  - congruence.
Qed.

(** Finding.  When a handler raises an exception while [process_all_stashed] goes through the
    messages, all the others it took out are lost: here the second message, although the queue
    has room and no handler saw it again. *)
Definition raiser : list (list act * verdict) := [([], VReturn (Some 1)); ([], VReturn (Some 1)); ([], VRaise)].
Theorem C31_accounted_refuted : exists cf sc ops m, let s := run cf sc ops in
  st s = Running /\ In (LOffer m) (log s) /\ (1 < limit cf)%nat /\ (forall c, get c (queues s) = []) /\
  place_of (log s) (m_id m) = Some Taken /\ ~ In (LDone m) (log s) /\ ~ In (LDiscard m) (log s).
Proof.
  exists (Config 5 (fun _ => false) false), raiser, [AOffer 0 0; AOffer 0 0; AAll (Some 1)], (Msg 1 0 0).
  cbv zeta. refine (conj eq_refl (conj _ (conj _ (conj _ (conj eq_refl _))))).
  - vm_compute. auto 10.
  - simpl. lia.
  - intros c. simpl. destruct (c =? 1); reflexivity.
  - split; vm_compute; intuition discriminate.
Qed.

(** A sorted queue is sorted by key. *)
Theorem C31_sorted : forall cf sc ops c, sorted_code cf c = true ->
  StronglySorted (fun a b => m_key a <= m_key b) (get c (queues (run cf sc ops))).
Proof.
  intros cf sc ops c Sc. rewrite C31_queues. generalize (log (run cf sc ops)). intros l.
  induction l as [|x l IH] using rev_ind; [apply SSorted_nil|]. rewrite expected_snoc.
  destruct x as [m|m h|m|m|m c'|m c'|m|m c'|m]; try exact IH; destruct (c' =? c); try exact IH.
  - rewrite Sc. revert IH. generalize (expected cf c l). clear. intros q. induction q as [|y q IH]; simpl; intros H.
    + apply SSorted_cons; [apply SSorted_nil|apply Forall_nil].
    + inversion H as [|? ? H1 H2]; subst. destruct (Z.ltb_spec (m_key m) (m_key y)).
      * apply SSorted_cons; [exact H|]. apply Forall_cons; [lia|]. eapply Forall_impl; [|exact H2]. simpl. intros. lia.
      * apply SSorted_cons; [apply IH, H1|]. apply Forall_forall. intros z Z. apply insert_in in Z as [->|Z]; [lia|].
        rewrite Forall_forall in H2. apply H2, Z.
  - revert IH. generalize (expected cf c l). clear. intros q. induction q as [|y q IH]; simpl; intros H; [apply SSorted_nil|].
    inversion H as [|? ? H1 H2]; subst. destruct (negb _); [|apply IH, H1]. apply SSorted_cons; [apply IH, H1|].
    apply Forall_forall. intros z Z. apply filter_In in Z. rewrite Forall_forall in H2. apply H2, Z.
Qed.

(** ** What an unstash call offers *)
(** the messages with which handlers were called, in order *)
Definition calls (l : list entry) : list msg := flat_map (fun x => match x with LCall m _ => [m] | _ => [] end) l.
Inductive subseq {A} : list A -> list A -> Prop :=
| sub_nil l : subseq [] l
| sub_take x l l' : subseq l l' -> subseq (x :: l) (x :: l')
| sub_skip x l l' : subseq l l' -> subseq l (x :: l').
Lemma subseq_skip {A} (l a b : list A) : subseq l b -> subseq l (a ++ b).
Proof. intros H. induction a as [|x a IH]; [exact H|]. apply sub_skip, IH. Qed.
Lemma subseq_app {A} (x : A) (l a b : list A) : subseq l b -> subseq (x :: l) ((x :: a) ++ b).
Proof. intros H. simpl. apply sub_take, subseq_skip, H. Qed.

Definition grows (s s' : state) : Prop := exists seg, log s' = log s ++ seg.
Lemma grows_refl s : grows s s.
Proof. exists []. symmetry. apply app_nil_r. Qed.
Lemma grows_trans s s1 s2 : grows s s1 -> grows s1 s2 -> grows s s2.
Proof. intros (a & A) (b & B). exists (a ++ b). rewrite B, A, app_assoc. reflexivity. Qed.
Lemma grows_eq s s' x : log s' = log s ++ x -> grows s s'.
Proof. exists x. assumption. Qed.

(** what [_process] appends starts with the call *)
Definition calls_first (proc : nat -> msg -> state -> state * bool) : Prop := forall h m s,
  is_running (fst (proc h m s)) = true -> exists l, log (fst (proc h m s)) = log s ++ LCall m h :: l.
Definition proc_grows (proc : nat -> msg -> state -> state * bool) : Prop := forall h m s,
  grows s (fst (proc h m s)) /\ (is_running (fst (proc h m s)) = true -> is_running s = true).

Section G.
Variable cf : config.
Variable proc : nat -> msg -> state -> state * bool.
Hypothesis Hg : proc_grows proc.
Definition gr (s s' : state) : Prop := grows s s' /\ (is_running s' = true -> is_running s = true).
Lemma gr_refl s : gr s s.
Proof. split; [apply grows_refl|auto]. Qed.
Lemma gr_trans s s1 s2 : gr s s1 -> gr s1 s2 -> gr s s2.
Proof. intros (A & B) (C & D). split; [exact (grows_trans _ _ _ A C)|auto]. Qed.
Lemma unstash_gr m s : gr s (fst (unstash cf proc m s)).
Proof. unfold unstash. destruct (has_unstash cf); [|apply Hg]. split; [exists [LInbox m]; reflexivity|auto]. Qed.
Lemma unstash_list_gr l : forall s, gr s (unstash_list cf proc l s).
Proof.
  induction l as [|m l IH]; intros s; simpl; [apply gr_refl|]. destruct (is_running s) eqn:R; [|apply gr_refl].
  eapply gr_trans; [apply unstash_gr|apply IH].
Qed.
Lemma all_code_gr c s : gr s (all_code cf proc c s).
Proof.
  unfold all_code. destruct (get c (queues s)) as [|m q]; [apply gr_refl|].
  eapply gr_trans; [|apply unstash_list_gr]. split; [eexists; reflexivity|auto].
Qed.
Lemma until_gr fuel c : forall s, gr s (until_code cf proc fuel c s).
Proof.
  induction fuel as [|fuel IH]; intros s; cbn [until_code].
  { split; [exists []; simpl; symmetry; apply app_nil_r|discriminate]. }
  destruct (is_running s) eqn:R; [|apply gr_refl]. destruct (get c (queues s)) as [|m q]; [apply gr_refl|].
  pose proof (unstash_gr m (note (LTake m c) (with_queue c q s))) as G. destruct (unstash _ _ _ _) as (s1, go). simpl in G.
  assert (G1 : gr s s1). { eapply gr_trans; [|exact G]. split; [eexists; reflexivity|auto]. }
  destruct go; [|exact G1]. eapply gr_trans; [exact G1|apply IH].
Qed.
Lemma for_codes_gr f c s : (forall c s, gr s (f c s)) -> gr s (for_codes f c s).
Proof.
  intros F. unfold for_codes. destruct c as [c|]; [apply F|]. generalize (codes s). intros l. revert s.
  induction l as [|c l IH]; intros s; simpl; [apply gr_refl|]. destruct (is_running s); [|apply gr_refl].
  eapply gr_trans; [apply F|apply IH].
Qed.
Lemma do_acts_gr n l : forall s, gr s (do_acts cf proc n l s).
Proof.
  induction l as [|a l IH]; intros s; [apply gr_refl|]. simpl. eapply gr_trans; [|apply IH].
  unfold do_act. destruct (is_running s) eqn:R; [|apply gr_refl]. destruct a.
  - eapply gr_trans; [|apply Hg]. split; [eexists; reflexivity|auto].
  - apply for_codes_gr, all_code_gr.
  - apply for_codes_gr, until_gr.
Qed.
Hypothesis Hc : calls_first proc.
Lemma unstash_list_calls l : has_unstash cf = false -> forall s, is_running (unstash_list cf proc l s) = true ->
  exists seg, log (unstash_list cf proc l s) = log s ++ seg /\ subseq l (calls seg).
Proof.
  intros U. induction l as [|m l IH]; intros s; simpl.
  { intros _. exists []. split; [symmetry; apply app_nil_r|apply sub_nil]. }
  destruct (is_running s) eqn:R; [|congruence]. intros R'.
  pose proof (proj2 (unstash_list_gr l _) R') as R1. destruct (IH _ R') as (seg & E & Sb). rewrite E.
  unfold unstash in R1 |- *. rewrite U in R1 |- *. destruct (Hc 0%nat m s R1) as (l0 & ->).
  exists ((LCall m 0 :: l0) ++ seg). rewrite <- app_assoc. split; [reflexivity|].
  unfold calls. rewrite flat_map_app. apply (subseq_app m). exact Sb.
Qed.
End G.

Lemma process_grows cf fuel : proc_grows (process cf fuel).
Proof.
  induction fuel as [|fuel IH]; intros h m s; cbn [process].
  { simpl. split; [exists []; simpl; symmetry; apply app_nil_r|discriminate]. }
  destruct (script s) as [|(acts, v) sc]; [split; [exists []; simpl; symmetry; apply app_nil_r|discriminate]|].
  set (s0 := State (queues s) (next s) sc (st s) (log s ++ [LCall m h])).
  pose proof (do_acts_gr cf (process cf fuel) IH (S fuel) acts s0) as G.
  set (s1 := do_acts cf (process cf fuel) (S fuel) acts s0) in *. clearbody s1.
  assert (G0 : gr s s0) by (split; [eexists; reflexivity|auto]).
  assert (G1 : gr s s1) by (eapply gr_trans; eassumption).
  destruct (is_running s1) eqn:R1; [|exact G1].
  assert (X : forall x s', log s' = log s1 ++ x -> gr s s').
  { intros x s' E. split; [eapply grows_trans; [apply G1|exists x; exact E]|]. intros _. apply G1, R1. }
  destruct v as [[c|]|]; [|eapply X; reflexivity|eapply X; reflexivity].
  destruct (c =? 0); [eapply X; reflexivity|]. destruct (c =? -1); [eapply X; reflexivity|]. simpl. unfold stash.
  destruct (_ <=? _)%nat; eapply X; reflexivity.
Qed.
Lemma process_calls_first cf fuel : calls_first (process cf fuel).
Proof.
  intros h m s. destruct fuel as [|fuel]; cbn [process]; [discriminate|].
  destruct (script s) as [|(acts, v) sc]; [discriminate|].
  set (s0 := State (queues s) (next s) sc (st s) (log s ++ [LCall m h])).
  destruct (do_acts_gr cf (process cf fuel) (process_grows cf fuel) (S fuel) acts s0) as ((l & L) & _).
  set (s1 := do_acts cf (process cf fuel) (S fuel) acts s0) in *. clearbody s1. simpl in L. rewrite <- app_assoc in L. simpl in L.
  destruct (is_running s1); [|intros _; exists l; exact L].
  assert (X : forall x s', log s' = log s1 ++ [x] -> exists l', log s' = log s ++ LCall m h :: l').
  { intros x s' E. exists (l ++ [x]). rewrite E, L, <- app_assoc. reflexivity. }
  intros _. destruct v as [[c|]|]; [|eapply X; reflexivity|eapply X; reflexivity].
  destruct (c =? 0); [eapply X; reflexivity|]. destruct (c =? -1); [eapply X; reflexivity|]. simpl. unfold stash.
  destruct (_ <=? _)%nat; eapply X; reflexivity.
Qed.

(** [process_all_stashed code] offers every message of the queue, in the order of the queue; with
    an unstash handler it gives them to it in that order and does nothing else. *)
Theorem C31_all_offered : forall cf sc ops c, let s := run cf sc ops in let s' := step cf s (AAll (Some c)) in
  st s = Running -> st s' = Running -> (forall m, ~ In (LRaise m) (log s')) ->
  exists seg, log s' = log s ++ map (fun m => LTake m c) (get c (queues s)) ++ seg /\
    if has_unstash cf then seg = map LInbox (get c (queues s)) else subseq (get c (queues s)) (calls seg).
Proof.
  intros cf sc ops c s s' R R' Nr.
  assert (E : s' = all_code cf (process cf (S (length (script s)))) c s).
  { destruct (run_good cf sc ops) as (I & _). fold s in I.
    pose proof (do_act_good cf (process cf (S (length (script s)))) (process_ok cf _) (S (length (script s))) (AAll (Some c)) s I) as G.
    unfold s' in Nr |- *. unfold step in Nr |- *. unfold do_act, is_running, for_codes in *. rewrite R in Nr, G |- *.
    destruct (st (all_code cf _ c s)) eqn:S1; [reflexivity| |reflexivity]. exfalso.
    destruct (i_raised _ _ (g_inv _ _ _ _ G) S1) as (m & M). apply (Nr m). simpl. exact M. }
  rewrite E in R' |- *. clear E Nr. set (proc := process cf (S (length (script s)))) in *.
  unfold all_code in *. destruct (get c (queues s)) as [|m q] eqn:Q.
  { exists []. simpl. rewrite app_nil_r. destruct (has_unstash cf); split; auto. apply sub_nil. }
  set (data := m :: q) in *. set (s1 := State _ _ _ _ _) in *.
  assert (R1 : is_running (unstash_list cf proc data s1) = true) by (unfold is_running; rewrite R'; reflexivity).
  destruct (has_unstash cf) eqn:U.
  - exists (map LInbox data). split; [|reflexivity]. rewrite app_assoc. change (log s ++ map (fun m => LTake m c) data) with (log s1).
    assert (Rs : st s1 = Running) by exact R. clearbody s1 data. clear -U Rs. revert s1 Rs. induction data as [|m l IH]; intros s1 Rs; simpl.
    + symmetry. apply app_nil_r.
    + unfold is_running. rewrite Rs. unfold unstash at 1. rewrite U. simpl. rewrite IH; [|exact Rs]. simpl. rewrite <- app_assoc. reflexivity.
  - destruct (unstash_list_calls cf proc (process_grows cf _) (process_calls_first cf _) data U s1 R1) as (seg & L & Sb).
    exists seg. split; [|exact Sb]. rewrite L. unfold s1. simpl. rewrite <- app_assoc. reflexivity.
Qed.

(** [process_stashed_until_first_restash code] stops only when the queue is empty or the handler
    asked for a message to be stashed again. *)
Theorem C31_until_first_restash : forall cf sc ops c, let s := run cf sc ops in let s' := step cf s (AUntil (Some c)) in
  has_unstash cf = false -> st s' = Running -> (forall m, ~ In (LRaise m) (log s')) ->
  get c (queues s') = [] \/ exists l m c', log s' = l ++ [LStash m c'] \/ log s' = l ++ [LReject m c'].
Proof.
  intros cf sc ops c s s' U R' Nr.
  assert (R : st s = Running).
  { destruct (run_good cf sc ops) as (_ & N & _). fold s in N. destruct (st s) eqn:E; [reflexivity|congruence|].
    unfold s', step, do_act, is_running in R'. rewrite E in R'. simpl in R'. rewrite E in R'. congruence. }
  assert (E : s' = until_code cf (process cf (S (length (script s)))) (S (length (script s))) c s).
  { destruct (run_good cf sc ops) as (I & _). fold s in I.
    pose proof (do_act_good cf (process cf (S (length (script s)))) (process_ok cf _) (S (length (script s))) (AUntil (Some c)) s I) as G.
    unfold s' in Nr |- *. unfold step in Nr |- *. unfold do_act, is_running, for_codes in *. rewrite R in Nr, G |- *.
    destruct (st (until_code cf _ _ c s)) eqn:S1; [reflexivity| |reflexivity]. exfalso.
    destruct (i_raised _ _ (g_inv _ _ _ _ G) S1) as (m & M). apply (Nr m). simpl. exact M. }
  assert (P : forall n h m s, is_running (fst (process cf n h m s)) = true -> snd (process cf n h m s) = false ->
    exists l m' c', log (fst (process cf n h m s)) = l ++ [LStash m' c'] \/ log (fst (process cf n h m s)) = l ++ [LReject m' c']).
  { clear. intros n h m s. destruct n as [|n]; cbn [process]; [discriminate|].
    destruct (script s) as [|(acts, v) sc]; [discriminate|]. set (s1 := do_acts _ _ _ _ _). clearbody s1.
    destruct (is_running s1) eqn:R; [|simpl; congruence].
    destruct v as [[z|]|]; [|discriminate|discriminate]. destruct (z =? 0); [discriminate|]. destruct (z =? -1); [discriminate|].
    simpl. intros _ _. unfold stash. destruct (_ <=? _)%nat; exists (log s1), m, z; [right|left]; reflexivity. }
  assert (G : forall k j s, st (until_code cf (process cf j) k c s) = Running ->
    get c (queues (until_code cf (process cf j) k c s)) = [] \/
    exists l m c', log (until_code cf (process cf j) k c s) = l ++ [LStash m c'] \/ log (until_code cf (process cf j) k c s) = l ++ [LReject m c']).
  { clear - P U. induction k as [|k IH]; intros j s; cbn [until_code]; [discriminate|].
    destruct (is_running s) eqn:R; [|unfold is_running in R; destruct (st s); congruence].
    destruct (get c (queues s)) as [|m q] eqn:Q; [intros _; left; exact Q|].
    unfold unstash. rewrite U. set (s1 := note _ _). specialize (P j 0%nat m s1).
    destruct (process cf j 0%nat m s1) as (s2, go). simpl in P. destruct go; [apply IH|].
    intros R2. right. apply P; [unfold is_running; rewrite R2; reflexivity|reflexivity]. }
  rewrite E in R' |- *. apply G, R'.
Qed.

(** ... and it stops right there: with handlers that do not use the router themselves, nothing
    happens after a message was stashed again. *)
Definition restash (x : entry) : bool := match x with LStash _ _ | LReject _ _ => true | _ => false end.
Theorem C31_until_stops_at_restash : forall cf s c, has_unstash cf = false -> st s = Running ->
  Forall (fun p => fst p = []) (script s) ->
  exists seg, log (step cf s (AUntil (Some c))) = log s ++ seg /\
    forall l1 x l2, seg = l1 ++ x :: l2 -> restash x = true -> l2 = [].
Proof.
  intros cf s c U R F. unfold step, do_act, is_running, for_codes. rewrite R.
  assert (P : forall n h m s, Forall (fun p => fst p = []) (script s) -> st s = Running ->
    Forall (fun p => fst p = []) (script (fst (process cf n h m s))) /\
    exists seg, log (fst (process cf n h m s)) = log s ++ seg /\
      (snd (process cf n h m s) = true -> st (fst (process cf n h m s)) = Running /\ forall x, In x seg -> restash x = false) /\
      forall l1 x l2, seg = l1 ++ x :: l2 -> restash x = true -> l2 = []).
  { clear. intros n h m s F R. destruct n as [|n]; cbn [process].
    { simpl. split; [exact F|]. exists []. rewrite app_nil_r. repeat split; try discriminate. intros l1 x l2 E. destruct l1; discriminate. }
    destruct (script s) as [|(acts, v) sc]; [simpl; split; [constructor|]; exists []; rewrite app_nil_r; repeat split; try discriminate; intros l1 x l2 E; destruct l1; discriminate|].
    inversion F as [|? ? F1 F2]; subst. simpl in F1. subst acts. cbn [do_acts fold_left].
    set (s1 := State (queues s) (next s) sc (st s) (log s ++ [LCall m h])).
    assert (R1 : st s1 = Running) by exact R. unfold is_running. rewrite R1.
    assert (X : forall x s' b, log s' = log s1 ++ [x] -> script s' = sc -> (b = true -> st s' = Running /\ restash x = false) ->
      Forall (fun p => fst p = []) (script (fst (s', b))) /\
      exists seg, log (fst (s', b)) = log s ++ seg /\
      (snd (s', b) = true -> st (fst (s', b)) = Running /\ forall y, In y seg -> restash y = false) /\
      forall l1 y l2, seg = l1 ++ y :: l2 -> restash y = true -> l2 = []).
    { intros x s' b L Sc B. simpl. rewrite Sc. split; [exact F2|]. exists [LCall m h; x]. rewrite L. simpl. rewrite <- app_assoc.
      split; [reflexivity|]. split.
      - intros Hb. destruct (B Hb) as (B1 & B2). split; [exact B1|]. intros y [<-|[<-|[]]]; [reflexivity|exact B2].
      - intros l1 y l2 E Hy. destruct l1 as [|a [|b' [|? l1]]]; simpl in E; try discriminate.
        + injection E as <- _. discriminate.
        + injection E as _ _ <-. reflexivity. }
    destruct v as [[z|]|].
    - destruct (z =? 0); [apply (X (LDone m)); [reflexivity|reflexivity|auto]|].
      destruct (z =? -1); [apply (X (LDiscard m)); [reflexivity|reflexivity|auto]|].
      unfold stash. destruct (_ <=? _)%nat; [apply (X (LReject m z))|apply (X (LStash m z))]; try reflexivity; discriminate.
    - apply (X (LDone m)); [reflexivity|reflexivity|auto].
    - apply (X (LRaise m)); [reflexivity|reflexivity|discriminate]. }
  assert (G : forall k j s, Forall (fun p => fst p = []) (script s) ->
    exists seg, log (until_code cf (process cf j) k c s) = log s ++ seg /\ forall l1 x l2, seg = l1 ++ x :: l2 -> restash x = true -> l2 = []).
  { clear - P U. induction k as [|k IH]; intros j s F; cbn [until_code].
    { exists []. simpl. rewrite app_nil_r. split; [reflexivity|]. intros l1 x l2 E. destruct l1; discriminate. }
    assert (Nil : exists seg, log s = log s ++ seg /\ forall l1 x l2, seg = l1 ++ x :: l2 -> restash x = true -> l2 = []).
    { exists []. rewrite app_nil_r. split; [reflexivity|]. intros l1 x l2 E. destruct l1; discriminate. }
    destruct (is_running s) eqn:R; [|exact Nil]. destruct (get c (queues s)) as [|m q] eqn:Q; [exact Nil|].
    unfold unstash. rewrite U. set (s1 := note (LTake m c) (with_queue c q s)).
    destruct (P j 0%nat m s1) as (F1 & seg & L & B & E); [exact F|unfold is_running in R; simpl; destruct (st s); congruence|].
    destruct (process cf j 0%nat m s1) as (s2, go). simpl in *. destruct go.
    - destruct (B eq_refl) as (_ & Bn). destruct (IH j s2 F1) as (seg2 & L2 & E2). exists ((LTake m c :: seg) ++ seg2).
      rewrite L2, L, <- !app_assoc. split; [reflexivity|]. intros l1 x l2 Eq Hx.
      assert (Pre : forall y, In y (LTake m c :: seg) -> restash y = false) by (intros y [<-|Y]; [reflexivity|apply Bn, Y]).
      revert l1 Eq. generalize (LTake m c :: seg) Pre. clear - E2 Hx. intros p. induction p as [|y p IH]; intros Pre l1 Eq.
      + apply (E2 l1 x l2 Eq Hx).
      + destruct l1 as [|y' l1]; simpl in Eq; [injection Eq as -> _; rewrite (Pre x) in Hx; [discriminate|left; reflexivity]|].
        injection Eq as _ Eq. apply (IH (fun y W => Pre y (or_intror W)) l1 Eq).
    - exists (LTake m c :: seg). rewrite L. rewrite <- app_assoc. split; [reflexivity|].
      intros l1 x l2 Eq Hx. destruct l1 as [|y l1]; simpl in Eq; [injection Eq as <- _; discriminate|].
      injection Eq as _ Eq. apply (E l1 x l2 Eq Hx). }
  destruct (G (S (length (script s))) (S (length (script s))) s F) as (seg & L & E). exists seg. split; [|exact E].
  set (s1 := until_code _ _ _ _ _) in *. destruct (st s1); exact L.
Qed.

(** ** The execution stops in the middle only when the script is used up *)
Definition enough (n : nat) (proc : nat -> msg -> state -> state * bool) : Prop := forall h m s,
  (length (script s) < n)%nat -> is_running s = true -> let s' := fst (proc h m s) in
  (length (script s') <= length (script s))%nat /\ (st s' = OutOfScript -> script s' = []) /\
  (is_running s' = true -> (length (script s') < length (script s))%nat).
Definition ends (s s' : state) : Prop :=
  (length (script s') <= length (script s))%nat /\ (st s' = OutOfScript -> st s = OutOfScript \/ script s' = []).
Lemma ends_refl s : ends s s.
Proof. split; auto. Qed.
Lemma ends_trans s s1 s2 : ends s s1 -> ends s1 s2 -> ends s s2.
Proof.
  intros (A & B) (C & D). split; [lia|]. intros E. destruct (D E) as [F|F]; [|auto]. destruct (B F) as [G|G]; [auto|].
  right. rewrite G in C. simpl in C. destruct (script s2); [reflexivity|simpl in C; lia].
Qed.
Section E.
Variable cf : config.
Variable proc : nat -> msg -> state -> state * bool.
Variable n : nat.
Hypothesis Hn : enough n proc.
Lemma proc_ends h m s : (length (script s) < n)%nat -> is_running s = true -> ends s (fst (proc h m s)).
Proof. intros L R. destruct (Hn h m s L R) as (A & B & _). split; auto. Qed.
Lemma unstash_ends m s : (length (script s) < n)%nat -> is_running s = true -> ends s (fst (unstash cf proc m s)).
Proof. intros L R. unfold unstash. destruct (has_unstash cf); [split; simpl; auto|apply proc_ends; assumption]. Qed.
Lemma unstash_list_ends l : forall s, (length (script s) < n)%nat -> ends s (unstash_list cf proc l s).
Proof.
  induction l as [|m l IH]; intros s L; simpl; [apply ends_refl|]. destruct (is_running s) eqn:R; [|apply ends_refl].
  pose proof (unstash_ends m s L R) as E. eapply ends_trans; [exact E|]. apply IH. destruct E. lia.
Qed.
Lemma all_ends c s : (length (script s) < n)%nat -> ends s (all_code cf proc c s).
Proof.
  intros L. unfold all_code. destruct (get c (queues s)) as [|m q]; [apply ends_refl|].
  eapply ends_trans; [|apply unstash_list_ends; exact L]. split; simpl; auto.
Qed.
Lemma until_ends k c : forall s, (length (script s) < n)%nat -> (length (script s) < k)%nat -> ends s (until_code cf proc k c s).
Proof.
  induction k as [|k IH]; intros s L K; [lia|]. cbn [until_code]. destruct (is_running s) eqn:R; [|apply ends_refl].
  destruct (get c (queues s)) as [|m q]; [apply ends_refl|].
  set (s1 := note (LTake m c) (with_queue c q s)).
  assert (E1 : ends s s1) by (split; simpl; auto).
  pose proof (unstash_ends m s1 L R) as E2. unfold unstash in *. destruct (has_unstash cf); [exact (ends_trans _ _ _ E1 E2)|].
  pose proof (Hn 0%nat m s1 L R) as (H1 & H2 & H3). destruct (proc 0%nat m s1) as (s2, go). simpl in *.
  assert (E3 : ends s s2) by exact (ends_trans _ _ _ E1 E2).
  destruct go; [|exact E3]. destruct (is_running s2) eqn:R2.
  - eapply ends_trans; [exact E3|]. specialize (H3 eq_refl). simpl in H3. apply IH; lia.
  - destruct k as [|k]; [|cbn [until_code]; rewrite R2; exact E3].
    cbn [until_code]. split; [simpl; lia|]. simpl. intros _. right. destruct (script s2); [reflexivity|].
    assert (length (script s) = 0)%nat by lia. simpl in H1. lia.
Qed.
Lemma for_codes_ends f c s : (forall c s, (length (script s) < n)%nat -> ends s (f c s)) -> (length (script s) < n)%nat -> ends s (for_codes f c s).
Proof.
  intros F L. unfold for_codes. destruct c as [c|]; [apply F, L|]. generalize (codes s). intros l. revert s L.
  induction l as [|c l IH]; intros s L; simpl; [apply ends_refl|]. destruct (is_running s); [|apply ends_refl].
  pose proof (F c s L) as E. eapply ends_trans; [exact E|]. apply IH. destruct E. lia.
Qed.
Lemma do_act_ends k a s : (length (script s) < n)%nat -> (n <= k)%nat -> ends s (do_act cf proc k a s).
Proof.
  intros L K. unfold do_act. destruct (is_running s) eqn:R; [|apply ends_refl]. destruct a.
  - eapply ends_trans; [|apply proc_ends; [exact L|exact R]]. split; simpl; auto.
  - apply for_codes_ends; [intros; apply all_ends; assumption|exact L].
  - apply for_codes_ends; [|exact L]. intros c0 s0 L0. apply until_ends; [exact L0|lia].
Qed.
Lemma do_acts_ends k l : forall s, (length (script s) < n)%nat -> (n <= k)%nat -> ends s (do_acts cf proc k l s).
Proof.
  induction l as [|a l IH]; intros s L K; [apply ends_refl|]. pose proof (do_act_ends k a s L K) as E.
  eapply ends_trans; [exact E|]. apply IH; [destruct E; lia|exact K].
Qed.
End E.
Lemma process_enough cf n : enough n (process cf n).
Proof.
  induction n as [|n IH]; intros h m s L R; [lia|]. cbn [process]. destruct (script s) as [|(acts, v) sc] eqn:Sc.
  { simpl. split; [lia|]. split; [auto|discriminate]. }
  simpl in L. set (s0 := State (queues s) (next s) sc (st s) (log s ++ [LCall m h])).
  assert (L0 : (length (script s0) < n)%nat) by (simpl; lia).
  pose proof (do_acts_ends cf (process cf n) n IH (S n) acts s0 L0 ltac:(lia)) as (E1 & E2).
  set (s1 := do_acts cf (process cf n) (S n) acts s0) in *. clearbody s1. simpl in E1.
  assert (Rs : st s <> OutOfScript) by (unfold is_running in R; destruct (st s); congruence).
  destruct (is_running s1) eqn:R1.
  - assert (Rs1 : st s1 = Running) by (unfold is_running in R1; destruct (st s1); congruence).
    assert (X : forall s', script s' = script s1 -> st s' <> OutOfScript -> (length (script s') <= length ((acts, v) :: sc))%nat /\
      (st s' = OutOfScript -> script s' = []) /\ (is_running s' = true -> (length (script s') < length ((acts, v) :: sc))%nat)).
    { intros s' -> N. simpl. split; [lia|]. split; [congruence|lia]. }
    destruct v as [[z|]|]; [|apply (X (note (LDone m) s1)); simpl; congruence|].
    + destruct (z =? 0); [apply (X (note (LDone m) s1)); simpl; congruence|].
      destruct (z =? -1); [apply (X (note (LDiscard m) s1)); simpl; congruence|].
      apply (X (stash cf z m s1)); unfold stash; destruct (_ <=? _)%nat; simpl; congruence.
    + apply (X (State (queues s1) (next s1) (script s1) Raised (log s1 ++ [LRaise m]))); simpl; congruence.
  - simpl. split; [lia|]. split; [|lia]. intros X. destruct (E2 X) as [Y|Y]; [simpl in Y; congruence|exact Y].
Qed.
Theorem C31_stops_only_without_script : forall cf sc ops, st (run cf sc ops) = OutOfScript -> script (run cf sc ops) = [].
Proof.
  intros cf sc ops. induction ops as [|a ops IH] using rev_ind; [discriminate|].
  unfold run in *. rewrite fold_left_app. simpl. set (s := fold_left (step cf) ops (init sc)) in *. clearbody s.
  unfold step. set (n := S (length (script s))).
  pose proof (do_act_ends cf (process cf n) n (process_enough cf n) n a s ltac:(unfold n; lia) ltac:(lia)) as (E1 & E2).
  set (s1 := do_act _ _ _ _ _) in *. clearbody s1.
  destruct (st s1) eqn:S1; [congruence|discriminate|]. intros _. destruct (E2 eq_refl) as [X|X]; [|exact X].
  specialize (IH X). rewrite IH in E1. simpl in E1. destruct (script s1); [reflexivity|simpl in E1; lia].
Qed.

(** What the router does with a message that arrives follows the handler's answer: None and PROCESS
    (0) end it, DISCARD (-1) discards it, any other code stashes it under that code if there is room. *)
Theorem C31_verdicts : forall cf sc ops h key c sc', let s := run cf sc ops in let m := Msg (next s) h key in
  st s = Running -> script s = ([], VReturn c) :: sc' ->
  log (step cf s (AOffer h key)) = log s ++ [LOffer m; LCall m h; match c with
    | None | Some 0 => LDone m
    | Some (-1) => LDiscard m
    | Some c => if (length (get c (queues s)) <? limit cf)%nat then LStash m c else LReject m c end].
Proof.
  intros cf sc ops h key c sc' s m R Sc. unfold step, do_act, is_running. rewrite R. cbn [process]. cbn [script]. rewrite Sc.
  cbn [do_acts fold_left]. unfold is_running. cbn [st].
  assert (X : forall s1 x, log s1 = (log s ++ [LOffer m]) ++ [LCall m h] -> st s1 = Running ->
    log (match st (fst (note x s1, true)) with Raised => State (queues (note x s1)) (next (note x s1)) (script (note x s1)) Running (log (note x s1)) | _ => note x s1 end)
    = log s ++ [LOffer m; LCall m h; x]).
  { intros s1 x L S1. simpl. rewrite S1. simpl. rewrite L, <- !app_assoc. reflexivity. }
  destruct c as [c|]; [|apply X; reflexivity].
  destruct (Z.eqb_spec c 0) as [->|N0]; [apply X; reflexivity|].
  destruct (Z.eqb_spec c (-1)) as [->|N1]; [apply X; reflexivity|].
  assert (E : (match c with 0 => LDone m | -1 => LDiscard m | _ => if (length (get c (queues s)) <? limit cf)%nat then LStash m c else LReject m c end)
     = if (length (get c (queues s)) <? limit cf)%nat then LStash m c else LReject m c).
  { destruct c as [|p|p]; [congruence|reflexivity|]. destruct p; try reflexivity. congruence. }
  rewrite E. cbn [fst]. unfold stash. cbn [queues]. rewrite Nat.ltb_antisym. fold s. fold m.
  destruct (_ <=? _)%nat; cbn [negb]; simpl; rewrite <- !app_assoc; reflexivity.
Qed.

(** Without a code all queues are gone through, in the order of their codes. *)
Theorem C31_codes : forall s, StronglySorted Z.le (codes s) /\ forall c, get c (queues s) <> [] -> In c (codes s).
Proof.
  intros s. unfold codes. generalize (queues s). intros q.
  assert (In_ins : forall z l x, In x (insert_z z l) <-> x = z \/ In x l).
  { intros z l x. induction l as [|y l IH]; simpl; [intuition congruence|]. destruct (z <=? y); simpl; [intuition congruence|].
    rewrite IH. intuition congruence. }
  split.
  - induction (map fst q) as [|z l IH]; simpl; [apply SSorted_nil|]. induction IH as [|y l' IH IH2 F]; simpl.
    + apply SSorted_cons; [apply SSorted_nil|apply Forall_nil].
    + destruct (Z.leb_spec z y).
      * apply SSorted_cons; [apply SSorted_cons; assumption|]. apply Forall_cons; [exact H|]. eapply Forall_impl; [|exact F]. simpl. intros. lia.
      * apply SSorted_cons; [exact IH2|]. apply Forall_forall. intros x X. apply In_ins in X as [->|X]; [lia|].
        rewrite Forall_forall in F. apply F, X.
  - intros c. induction q as [|(c', l) q IH]; simpl; [congruence|]. intros N. apply In_ins.
    destruct (Z.eqb_spec c c'); [left; assumption|right; apply IH, N].
Qed.

(** [process_all_stashed()] with an unstash handler gives it all stashed messages, queue after
    queue in the order of the codes. *)
Theorem C31_all_codes_inbox : forall cf sc ops, let s := run cf sc ops in let s' := step cf s (AAll None) in
  has_unstash cf = true -> st s = Running ->
  exists l, StronglySorted Z.lt l /\ (forall c, In c l <-> get c (queues s) <> []) /\
    log s' = log s ++ flat_map (fun c => map (fun m => LTake m c) (get c (queues s)) ++ map LInbox (get c (queues s))) l.
Proof.
  intros cf sc ops s s' U R. unfold s', step, do_act, is_running. rewrite R. unfold for_codes.
  set (proc := process cf _). clearbody proc.
  assert (A : forall c s0, st s0 = Running -> st (all_code cf proc c s0) = Running /\
     (forall c', get c' (queues (all_code cf proc c s0)) = if c' =? c then [] else get c' (queues s0)) /\
     log (all_code cf proc c s0) = log s0 ++ map (fun m => LTake m c) (get c (queues s0)) ++ map LInbox (get c (queues s0))).
  { clear - U. intros c s0 R. unfold all_code. destruct (get c (queues s0)) as [|m q] eqn:Q.
    - split; [exact R|]. split; [|simpl; symmetry; apply app_nil_r]. intros c'. destruct (Z.eqb_spec c' c) as [->|]; [exact Q|reflexivity].
    - set (data := m :: q). set (s1 := State _ _ _ _ _). assert (R1 : st s1 = Running) by exact R.
      assert (Q1 : forall c', get c' (queues s1) = if c' =? c then [] else get c' (queues s0)) by (intros c'; simpl; apply get_put).
      assert (L1 : log s1 = log s0 ++ map (fun m => LTake m c) data) by reflexivity.
      rewrite app_assoc, <- L1, <- Q1 || idtac. clearbody s1 data. clear Q. revert s1 R1 Q1 L1.
      assert (G : forall data s1, st s1 = Running -> st (unstash_list cf proc data s1) = Running /\
         queues (unstash_list cf proc data s1) = queues s1 /\ log (unstash_list cf proc data s1) = log s1 ++ map LInbox data).
      { clear - U. induction data as [|m l IH]; intros s1 R1; simpl; [rewrite app_nil_r; auto|].
        unfold is_running. rewrite R1. unfold unstash. rewrite U. simpl.
        destruct (IH (note (LInbox m) s1) R1) as (X & Y & Z). rewrite X, Y, Z. simpl. rewrite <- app_assoc. auto. }
      intros s1 R1 Q1 L1. destruct (G data s1 R1) as (X & Y & Z). rewrite Y, Z, ?L1, <- ?app_assoc. auto. }
  pose proof (C31_codes s) as (So & Co). revert So Co. generalize (codes s). intros l.
  assert (B : forall l s0, st s0 = Running -> StronglySorted Z.le l -> (forall c, get c (queues s0) <> [] -> In c l) ->
    st (each_code (all_code cf proc) l s0) = Running /\
    exists l', StronglySorted Z.lt l' /\ (forall c, In c l' <-> get c (queues s0) <> []) /\
      log (each_code (all_code cf proc) l s0) = log s0 ++
        flat_map (fun c => map (fun m => LTake m c) (get c (queues s0)) ++ map LInbox (get c (queues s0))) l').
  { clear - A. induction l as [|c l IH]; intros s0 R So Co; simpl.
    - split; [exact R|]. exists []. split; [apply SSorted_nil|]. split; [|symmetry; apply app_nil_r].
      intros c. split; [contradiction|]. apply Co.
    - unfold is_running. rewrite R. destruct (A c s0 R) as (R1 & Q1 & L1). set (s1 := all_code cf proc c s0) in *. clearbody s1.
      inversion So as [|? ? So1 F]; subst. rewrite Forall_forall in F. destruct (IH s1 R1 So1) as (R2 & l' & X & Y & Z).
      { intros x. rewrite Q1. destruct (Z.eqb_spec x c); [congruence|]. intros W. destruct (Co x W); [congruence|assumption]. }
      split; [exact R2|]. assert (Fm : forall x, In x l' -> c < x /\ get x (queues s1) = get x (queues s0)).
      { intros x W. apply Y in W. rewrite Q1 in W |- *. destruct (x =? c) eqn:Ex; [congruence|]. apply Z.eqb_neq in Ex. split; [|reflexivity].
        destruct (Co x W) as [<-|V]; [congruence|]. apply F in V. lia. }
      assert (E : flat_map (fun c => map (fun m => LTake m c) (get c (queues s1)) ++ map LInbox (get c (queues s1))) l' =
        flat_map (fun c => map (fun m => LTake m c) (get c (queues s0)) ++ map LInbox (get c (queues s0))) l').
      { clear - Fm. induction l' as [|x l' IH]; [reflexivity|]. simpl. rewrite IH by (intros; apply Fm; right; assumption).
        rewrite (proj2 (Fm x (or_introl eq_refl))). reflexivity. }
      rewrite E in Z. rewrite Z, L1. destruct (get c (queues s0)) as [|m q] eqn:Q.
      + exists l'. split; [exact X|]. split; [|simpl; rewrite app_nil_r; reflexivity].
        intros x. rewrite Y, Q1. destruct (Z.eqb_spec x c) as [->|N]; [rewrite Q; tauto|tauto].
      + exists (c :: l'). split; [apply SSorted_cons; [exact X|apply Forall_forall; intros x W; apply Fm, W]|]. split.
        * intros x. simpl. rewrite Y, Q1. destruct (Z.eqb_spec x c) as [->|N]; [rewrite Q; split; [discriminate|auto]|].
          split; [intros [W|W]; [congruence|exact W]|auto].
        * simpl flat_map. rewrite Q, <- !app_assoc. reflexivity. }
  intros So Co. destruct (B l s R So Co) as (R2 & l' & X & Y & Z). exists l'. rewrite R2. auto.
Qed.

(** [process_all_stashed()] takes out every message that was stashed when it was called. *)
Lemma expected_taken cf c m l seg : log_ok cf (l ++ seg) -> In m (expected cf c l) ->
  In m (expected cf c (l ++ seg)) \/ In (LTake m c) seg.
Proof.
  induction seg as [|x seg IH] using rev_ind; intros O M; [rewrite app_nil_r; auto|].
  rewrite app_assoc in O |- *. apply log_ok_pre in O as (O & E). destruct (IH O M) as [H|H]; [|right; apply in_or_app; auto].
  rewrite expected_snoc. destruct x as [y|y h|y|y|y c'|y c'|y|y c'|y]; try (left; exact H); destruct (Z.eqb_spec c' c) as [->|]; try (left; exact H).
  - left. destruct (sorted_code cf c); [apply insert_in; auto|apply in_or_app; auto].
  - destruct (Nat.eqb_spec (m_id m) (m_id y)) as [Ei|Ei].
    + right. apply in_or_app. right. left. f_equal. symmetry. simpl in E. destruct E as (q & E).
      pose proof (log_holds cf _ O) as Ho. apply (h_unique _ _ Ho); [apply (h_offer _ _ Ho c), H| |exact Ei].
      apply (h_offer _ _ Ho c). rewrite E. left. reflexivity.
    + left. apply filter_In. split; [exact H|]. destruct (Nat.eqb_spec (m_id m) (m_id y)); [congruence|reflexivity].
Qed.
Theorem C31_all_codes_taken : forall cf sc ops, let s := run cf sc ops in let s' := step cf s (AAll None) in
  st s' = Running -> (forall m, ~ In (LRaise m) (log s')) ->
  exists seg, log s' = log s ++ seg /\ forall c m, In m (get c (queues s)) -> In (LTake m c) seg.
Proof.
  intros cf sc ops s s' R' Nr. destruct (run_good cf sc ops) as (I & N & _). fold s in I, N.
  assert (R : st s = Running).
  { destruct (st s) eqn:E; [reflexivity|congruence|].
    unfold s', step, do_act, is_running in R'. rewrite E in R'. simpl in R'. rewrite E in R'. congruence. }
  assert (E : s' = each_code (all_code cf (process cf (S (length (script s))))) (codes s) s).
  { pose proof (do_act_good cf (process cf (S (length (script s)))) (process_ok cf _) (S (length (script s))) (AAll None) s I) as G.
    unfold s' in Nr |- *. unfold step in Nr |- *. unfold do_act, is_running, for_codes in *. rewrite R in Nr, G |- *.
    set (s1 := each_code _ (codes s) s) in *. destruct (st s1) eqn:S1; [reflexivity| |reflexivity]. exfalso.
    destruct (i_raised _ _ (g_inv _ _ _ _ G) S1) as (m & M). apply (Nr m). simpl. exact M. }
  rewrite E in R' |- *. clear E Nr s'. set (n := S (length (script s))) in *. clearbody n.
  set (f := all_code cf (process cf n)) in *.
  assert (Gd : forall c s0, inv cf s0 -> good cf s0 (f c s0) (fun _ => False)) by (intros; apply all_code_good; [apply process_ok|assumption]).
  assert (Ge : forall l s0, inv cf s0 -> good cf s0 (each_code f l s0) (fun _ => False)).
  { clear - Gd. induction l as [|c l IH]; intros s0 I; simpl; [apply good_refl, I|].
    destruct (is_running s0); [|apply good_refl, I]. pose proof (Gd c s0 I) as G. apply (good_seq _ _ _ _ G), IH, (g_inv _ _ _ _ G). }
  destruct (g_log _ _ _ _ (Ge (codes s) s I)) as (seg & L). exists seg. split; [exact L|].
  intros c m M. destruct (C31_codes s) as (_ & Co). assert (Cin : In c (codes s)) by (apply Co; intros X; rewrite X in M; destruct M).
  assert (T : forall l s0 s1, inv cf s0 -> In m (expected cf c (log s0)) -> s1 = each_code f l s0 -> st s1 = Running -> In c l ->
     exists seg, log s1 = log s0 ++ seg /\ In (LTake m c) seg).
  { clear - Gd Ge. induction l as [|x l IH]; intros s0 s1 I M E R Cl; [destruct Cl|]. simpl in E.
    assert (R0 : is_running s0 = true).
    { destruct (is_running s0) eqn:R0; [reflexivity|]. subst s1. unfold is_running in R0. rewrite R in R0. discriminate. }
    rewrite R0 in E. pose proof (Gd x s0 I) as G. pose proof (g_inv _ _ _ _ G) as I1. destruct (g_log _ _ _ _ G) as (l1 & L1).
    destruct (g_log _ _ _ _ (Ge l (f x s0) I1)) as (l2 & L2).
    assert (Two : In (LTake m c) l1 -> exists seg, log s1 = log s0 ++ seg /\ In (LTake m c) seg).
    { intros W. exists (l1 ++ l2). rewrite E, L2, L1, <- app_assoc. split; [reflexivity|apply in_or_app; auto]. }
    destruct Cl as [<-|Cl].
    - apply Two. (* visited now *)
      assert (Q : In m (get x (queues s0))) by (rewrite (i_queue _ _ I); exact M).
      unfold f, all_code in L1. destruct (get x (queues s0)) as [|y q] eqn:Eq; [destruct Q|].
      pose proof (unstash_list_gr cf (process cf n) (process_grows cf n) (y :: q)) as W.
      match type of L1 with log (unstash_list _ _ _ ?t) = _ => destruct (W t) as ((l3 & L3) & _) end.
      rewrite L1 in L3. simpl in L3. rewrite <- app_assoc in L3. apply app_inv_head in L3. rewrite L3.
      apply in_or_app. left. apply (in_map (fun m => LTake m x) (y :: q)), Q.
    - destruct (expected_taken cf c m (log s0) l1) as [W|W]; [rewrite <- L1; apply (i_log _ _ I1)|exact M| |apply Two, W].
      rewrite <- L1 in W. destruct (IH _ s1 I1 W E R Cl) as (sg & L & Z). exists (l1 ++ sg). rewrite L, L1, <- app_assoc.
      split; [reflexivity|apply in_or_app; auto]. }
  rewrite (i_queue _ _ I) in M. destruct (T (codes s) s _ I M eq_refl R' Cin) as (sg & L' & Z).
  rewrite L in L'. apply app_inv_head in L'. rewrite L'. exact Z.
Qed.

(** ** Which handler *)
(** A message that was stashed is always offered to the first subscriber of its type.  So each
    subscription that is the first one of its type gets back the messages it stashed... *)
Theorem C31_same_handler_partial : forall cf sc ops l1 m h l2, log (run cf sc ops) = l1 ++ LCall m h :: l2 ->
  m_handler m = 0%nat -> h = m_handler m.
Proof.
  intros cf sc ops l1 m h l2 E Z. destruct (C31_lifecycle cf sc ops l1 (LCall m h) l2 E) as (_ & [(_ & X)|(_ & X)]); congruence.
Qed.
(** ... but a message stashed by a second subscriber of the same type is given to the first one,
    which gets it twice, and the second one never sees it again. *)
Theorem C31_same_handler_refuted : exists cf sc ops l1 m l2, log (run cf sc ops) = l1 ++ LCall m 0 :: l2 /\
  m_handler m = 1%nat /\ In (LCall m 1) l1 /\ In (LStash m 1) l1.
Proof.
  exists (Config 5 (fun _ => false) false), [([], VReturn (Some 1)); ([], VReturn None)], [AOffer 1 0; AAll None],
    [LOffer (Msg 0 1 0); LCall (Msg 0 1 0) 1; LStash (Msg 0 1 0) 1; LTake (Msg 0 1 0) 1], (Msg 0 1 0), [LDone (Msg 0 1 0)].
  refine (conj _ (conj eq_refl _)); [vm_compute; reflexivity|]. simpl. auto 10.
Qed.

(** ** A case *)
(** Four messages; three are stashed, one does not fit.  The first unstash call stashes the first
    one under another code, and the handler of the second one sends a message while it runs and
    unstashes that code. *)
Example C31_ex : let s := run (Config 2 (fun c => c =? 2) false)
    [([], VReturn (Some 1)); ([], VReturn (Some 1)); ([], VReturn (Some 1)); ([], VReturn (Some (-1)));
     ([], VReturn (Some 2)); ([AOffer 0 7; AAll (Some 2)], VReturn None); ([], VReturn (Some 2)); ([], VReturn (Some 2)); ([], VReturn (Some 2))]
    [AOffer 0 9; AOffer 0 5; AOffer 0 4; AOffer 0 3; AAll (Some 1)] in
  st s = Running /\ (forall m, ~ In (LRaise m) (log s)) /\
  map (fun i => place_of (log s) i) [0; 1; 2; 3; 4]%nat =
    [Some (Stashed 2); Some Processed; Some Rejected; Some Discarded; Some (Stashed 2)] /\
  map m_id (get 2 (queues s)) = [4; 0]%nat.
Proof.
  cbv zeta. refine (conj _ (conj _ (conj _ _))); [vm_compute; reflexivity| |vm_compute; reflexivity|vm_compute; reflexivity].
  intros m. vm_compute. intuition discriminate.
Qed.

(** three stashed messages; unstashing until the first re-stash ends after the second one *)
Example C31_until_ex : let cf := Config 5 (fun _ => false) false in
  let s := run cf [([], VReturn (Some 1)); ([], VReturn (Some 1)); ([], VReturn (Some 1)); ([], VReturn None); ([], VReturn (Some 1))]
    [AOffer 0 1; AOffer 0 2; AOffer 0 3] in
  has_unstash cf = false /\ st s = Running /\ Forall (fun p => fst p = []) (script s) /\
  map m_id (get 1 (queues (step cf s (AUntil (Some 1))))) = [2; 1]%nat /\ st (step cf s (AUntil (Some 1))) = Running.
Proof. vm_compute. auto 10. Qed.

Print Assumptions C31_lifecycle.
Print Assumptions C31_queues.
Print Assumptions C31_accounted_partial.
Print Assumptions C31_accounted_refuted.
Print Assumptions C31_sorted.
Print Assumptions C31_all_offered.
Print Assumptions C31_until_first_restash.
Print Assumptions C31_until_stops_at_restash.
Print Assumptions C31_stops_only_without_script.
Print Assumptions C31_verdicts.
Print Assumptions C31_codes.
Print Assumptions C31_all_codes_inbox.
Print Assumptions C31_all_codes_taken.
Print Assumptions C31_same_handler_partial.
Print Assumptions C31_same_handler_refuted.
