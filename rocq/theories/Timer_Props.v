(** Properties C32 (timer events run when due, in order, once, never after they are cancelled) and
    C45 (repeating timers). *)
From Coq Require Import List Arith ZArith Bool Lia.
From Verif Require Import Timer_Model.
Import ListNotations.
Local Open Scope Z_scope.

(** ** Specification: what is pending, from the log alone *)

(** the scheduled events that neither ran nor were cancelled, in the order of scheduling *)
Definition after_entry (p : list ev) (x : entry) : list ev :=
  match x with
  | LSched e => p ++ [e]
  | LCancel c => filter (fun e => negb (callback_eqb (e_cb e) c)) p
  | LRun e _ => filter (fun e' => negb (e_id e' =? e_id e)%nat) p
  | _ => p
  end.
Definition pending (l : list entry) : list ev := fold_left after_entry l [].

(** [e] comes before [e']: it is due earlier, or at the same time and was scheduled earlier *)
Definition before (e e' : ev) : Prop := e_ts e < e_ts e' \/ (e_ts e = e_ts e' /\ (e_id e < e_id e')%nat).

(** What is claimed of an entry which comes after [l] in the log. *)
Definition entry_ok (l : list entry) (x : entry) : Prop :=
  match x with
  | LSched e => forall e', In e' (pending l) \/ In (LSched e') l -> (e_id e' < e_id e)%nat
  | LRun e now => In e (pending l) /\ e_ts e <= now /\ forall e', In e' (pending l) -> e' = e \/ before e e'
  | LEnd now => forall e, In e (pending l) -> now < e_ts e
  | LIdle => pending l = []
  | _ => True
  end.
Definition log_ok (l : list entry) : Prop := forall l1 x l2, l = l1 ++ x :: l2 -> entry_ok l1 x.

(** ** Invariant *)
Fixpoint sorted (q : list ev) : Prop :=
  match q with
  | [] => True
  | e :: q' => (forall e', In e' q' -> before e e') /\ sorted q'
  end.

Record inv (s : state) : Prop := {
  i_sorted : sorted (queue s);
  i_same : forall e, In e (queue s) <-> In e (pending (log s));
  i_fresh : forall e, In (LSched e) (log s) -> (e_id e < next s)%nat;
  i_sched : forall e, In e (pending (log s)) -> In (LSched e) (log s);
  i_log : log_ok (log s) }.

Lemma callback_eqb_eq a b : callback_eqb a b = true <-> a = b.
Proof. destruct a, b; simpl; rewrite ?Nat.eqb_eq; split; congruence. Qed.

Lemma pending_snoc l x : pending (l ++ [x]) = after_entry (pending l) x.
Proof. unfold pending. rewrite fold_left_app. reflexivity. Qed.
Lemma log_ok_snoc l x : log_ok l -> entry_ok l x -> log_ok (l ++ [x]).
Proof.
  intros H E l1 y l2 Eq. destruct l2 as [|z l2] using rev_ind.
  - apply app_inj_tail in Eq as (<- & <-). exact E.
  - clear IHl2. change (l1 ++ y :: l2 ++ [z]) with (l1 ++ (y :: l2) ++ [z]) in Eq. rewrite app_assoc in Eq.
    apply app_inj_tail in Eq as (-> & _). eapply H. reflexivity.
Qed.
Lemma insert_in e q x : In x (insert e q) <-> x = e \/ In x q.
Proof.
  induction q as [|y q IH]; simpl; [intuition congruence|].
  destruct (e_ts e <? e_ts y); simpl; [intuition congruence|]. rewrite IH. intuition congruence.
Qed.
Lemma before_trans a b c : before a b -> before b c -> before a c.
Proof. unfold before. lia. Qed.
Lemma insert_sorted e q : sorted q -> (forall x, In x q -> (e_id x < e_id e)%nat) -> sorted (insert e q).
Proof.
  induction q as [|y q IH]; simpl; intros H F; [split; [contradiction|exact I]|]. destruct H as (H1 & H2).
  destruct (Z.ltb_spec (e_ts e) (e_ts y)).
  - assert (B : before e y) by (left; exact H). split; [|split; assumption].
    intros x [<-|X]; [exact B|]. eapply before_trans; [exact B|]. apply H1, X.
  - split; [|apply IH; auto]. intros x X. apply insert_in in X as [->|X]; [|apply H1, X].
    unfold before. assert (e_id y < e_id e)%nat by (apply F; left; reflexivity). lia.
Qed.
Lemma filter_sorted f q : sorted q -> sorted (filter f q).
Proof.
  induction q as [|y q IH]; simpl; [auto|]. intros (A & B). destruct (f y); simpl; [|auto].
  split; [|auto]. intros x X. apply filter_In in X. apply A, X.
Qed.

(** the same state in another respect *)
Lemma inv_note s x : inv s -> after_entry (pending (log s)) x = pending (log s) ->
  (forall e, x <> LSched e) -> entry_ok (log s) x -> inv (note x s).
Proof.
  intros [A B C D E] P N O. constructor; simpl; rewrite ?pending_snoc, ?P; auto.
  - intros e X. apply in_app_or in X as [X|[X|[]]]; [auto|]. destruct (N e X).
  - intros e X. apply in_or_app. left. auto.
  - apply log_ok_snoc; assumption.
Qed.
Lemma inv_same s s' : queue s' = queue s -> next s' = next s -> log s' = log s -> inv s -> inv s'.
Proof. intros A B C []. constructor; rewrite ?A, ?B, ?C; assumption. Qed.

Lemma schedule_inv d c s : inv s -> inv (schedule d c s).
Proof.
  intros I. unfold schedule. destruct (clock s) as [|now cl]; [apply (inv_same s); auto|].
  destruct I as [A B C D E]. set (e := Ev (next s) (now + d) c).
  assert (F : forall x, In x (queue s) -> (e_id x < e_id e)%nat) by (intros x X; apply C, D, B, X).
  constructor; simpl; rewrite ?pending_snoc; simpl.
  - apply insert_sorted; assumption.
  - intros x. rewrite insert_in, in_app_iff, B. simpl. intuition congruence.
  - intros x X. apply in_app_or in X as [X|[X|[]]]; [specialize (C x X); lia|]. injection X as <-. simpl. lia.
  - intros x X. apply in_app_or in X as [X|[<-|[]]]; apply in_or_app; [left; auto|right; left; reflexivity].
  - apply log_ok_snoc; [exact E|]. intros x [X|X]; apply C; [apply D|]; exact X.
Qed.
Lemma cancel_inv c s : inv s -> inv (cancel c s).
Proof.
  intros [A B C D E]. constructor; simpl; rewrite ?pending_snoc; simpl.
  - apply filter_sorted, A.
  - intros e. rewrite !filter_In, B. reflexivity.
  - intros e X. apply in_app_or in X as [X|[X|[]]]; [auto|discriminate].
  - intros e X. apply filter_In in X as (X & _). apply in_or_app. left. auto.
  - apply log_ok_snoc; [exact E|exact I].
Qed.
Lemma start_inv a r s : inv s -> inv (start a r s).
Proof.
  intros H. unfold start. destruct (interval a r); [|exact H]. destruct (active s r); [exact H|].
  apply schedule_inv, inv_note; [apply (inv_same s); auto|reflexivity|discriminate|exact I].
Qed.
Lemma stop_inv r s : inv s -> inv (stop r s).
Proof.
  intros H. unfold stop. destruct (negb _); [exact H|].
  apply cancel_inv, inv_note; [apply (inv_same s); auto|reflexivity|discriminate|exact I].
Qed.
Lemma do_action_inv a x s : inv s -> inv (do_action a x s).
Proof.
  intros H. unfold do_action. destruct (negb _); [exact H|].
  destruct x; auto using schedule_inv, cancel_inv, start_inv, stop_inv.
Qed.
Lemma do_actions_inv a l s : inv s -> inv (do_actions a l s).
Proof. revert s. induction l as [|x l IH]; intros s H; [exact H|]. apply (IH (do_action a x s)), do_action_inv, H. Qed.
Lemma call_inv a c s : inv s -> inv (call a c s).
Proof.
  intros H. unfold call. destruct c as [n|r]; [apply do_actions_inv, H|].
  destruct (negb (active s r)); [exact H|].
  assert (J : inv (do_actions a (rprog a r) (note (LCall r) s))).
  { apply do_actions_inv, inv_note; [exact H|reflexivity|discriminate|exact I]. }
  destruct (negb _); [exact J|]. destruct (interval a r); [apply schedule_inv|]; exact J.
Qed.
Lemma run_inv s e q now cl : inv s -> queue s = e :: q -> e_ts e <= now ->
  inv (State q (next s) (active s) cl (running s) (log s ++ [LRun e now])).
Proof.
  intros [A B C D E] Q L. rewrite Q in A. destruct A as (A1 & A2).
  assert (Ne : forall x, In x q -> x <> e).
  { intros x X ->. specialize (A1 e X). unfold before in A1. lia. }
  assert (Id : forall x, In x q -> e_id x <> e_id e).
  { (* two pending events with the same number are the same event *)
    intros x X Eq. assert (U : forall l, log_ok l -> (forall y, In y (pending l) -> In (LSched y) l) ->
        forall y z, In y (pending l) -> In z (pending l) -> e_id y = e_id z -> y = z).
    { clear. intros l. induction l as [|w l IH] using rev_ind; intros O P y z Y Z Ez; [destruct Y|].
      assert (O' : log_ok l). { intros l1 u l2 ->. apply (O l1 u (l2 ++ [w])). rewrite <- app_assoc. reflexivity. }
      assert (Ow : entry_ok l w) by (apply (O l w []); reflexivity).
      assert (P' : forall l', log_ok l' -> forall y, In y (pending l') -> In (LSched y) l').
      { clear. intros l'. induction l' as [|w l' IH] using rev_ind; intros O y Y; [destruct Y|].
        assert (O' : log_ok l'). { intros l1 u l2 ->. apply (O l1 u (l2 ++ [w])). rewrite <- app_assoc. reflexivity. }
        rewrite pending_snoc in Y. apply in_or_app. destruct w; simpl in Y; try (left; apply IH; assumption).
        - apply in_app_or in Y as [Y|[<-|[]]]; [left; apply IH; assumption|right; left; reflexivity].
        - apply filter_In in Y as (Y & _). left. apply IH; assumption.
        - apply filter_In in Y as (Y & _). left. apply IH; assumption. }
      specialize (P' l O'). rewrite pending_snoc in Y, Z.
      destruct w; simpl in Y, Z; try (apply (IH O' P' y z Y Z Ez)).
      - apply in_app_or in Y as [Y|[<-|[]]]; apply in_app_or in Z as [Z|[<-|[]]].
        + apply (IH O' P' y z Y Z Ez).
        + assert (e_id y < e_id e)%nat by (apply Ow; left; exact Y). lia.
        + assert (e_id z < e_id e)%nat by (apply Ow; left; exact Z). lia.
        + reflexivity.
      - apply filter_In in Y as (Y & _). apply filter_In in Z as (Z & _). apply (IH O' P' y z Y Z Ez).
      - apply filter_In in Y as (Y & _). apply filter_In in Z as (Z & _). apply (IH O' P' y z Y Z Ez). }
    apply (Ne x X). apply (U (log s) E D); [| |exact Eq]; apply B; rewrite Q; [right; exact X|left; reflexivity]. }
  constructor; simpl; rewrite ?pending_snoc; simpl.
  - exact A2.
  - intros x. rewrite filter_In, <- B, Q. split.
    + intros X. split; [right; exact X|]. destruct (Nat.eqb_spec (e_id x) (e_id e)); [|reflexivity]. destruct (Id x X). assumption.
    + intros ([<-|X] & Y); [|exact X]. rewrite Nat.eqb_refl in Y. discriminate.
  - intros x X. apply in_app_or in X as [X|[X|[]]]; [auto|discriminate].
  - intros x X. apply filter_In in X as (X & _). apply in_or_app. left. auto.
  - apply log_ok_snoc; [exact E|]. refine (conj _ (conj L _)).
    + apply B. rewrite Q. left. reflexivity.
    + intros x X. apply B in X. rewrite Q in X. destruct X as [<-|X]; [left; reflexivity|right; apply A1, X].
Qed.
Lemma service_inv a fuel s : inv s -> inv (service a fuel s).
Proof.
  revert s. induction fuel as [|fuel IH]; intros s H; [exact H|]. cbn [service].
  destruct (queue s) as [|e q] eqn:Q.
  - apply inv_note; [exact H|reflexivity|discriminate|]. simpl.
    destruct (pending (log s)) as [|y l] eqn:P; [reflexivity|]. exfalso.
    assert (X : In y (queue s)) by (apply (i_same s H); rewrite P; left; reflexivity). rewrite Q in X. destruct X.
  - destruct (clock s) as [|now cl]; [apply (inv_same s); auto|].
    destruct (Z.leb_spec (e_ts e) now) as [L|L].
    + assert (J : inv (call a (e_cb e) (State q (next s) (active s) cl (running s) (log s ++ [LRun e now]))))
        by (apply call_inv, run_inv; assumption).
      set (s1 := call a (e_cb e) _) in *. clearbody s1. destruct (running s1); [apply IH|]; exact J.
    + rewrite <- Q. change (State (queue s) (next s) (active s) cl (running s) (log s ++ [LEnd now])) with
        (note (LEnd now) (State (queue s) (next s) (active s) cl (running s) (log s))).
      apply inv_note; [apply (inv_same s); auto|reflexivity|discriminate|].
      simpl. intros x X. apply (i_same s H) in X. pose proof (i_sorted s H) as So. rewrite Q in X, So.
      destruct So as (So & _). destruct X as [<-|X]; [exact L|]. specialize (So x X). unfold before in So. lia.
Qed.
Lemma step_inv a o s : inv s -> inv (step a s o).
Proof. intros H. unfold step. destruct (negb _); [exact H|]. destruct o; auto using do_action_inv, service_inv. Qed.
Lemma run_all_inv a cl ops : inv (run a cl ops).
Proof.
  unfold run. assert (J : inv (init cl)).
  { constructor; simpl; try contradiction; auto; try tauto. intros l1 x l2 E. destruct l1; discriminate. }
  revert J. generalize (init cl). induction ops as [|o ops IH]; intros s H; [exact H|]. simpl. apply IH, step_inv, H.
Qed.

(** ** The theorems: for every application, every sequence of calls and every clock *)

(** A callback is called only for an event that is pending, when its time has come, and no
    pending event is due earlier or was scheduled earlier for the same time. *)
Theorem C32_runs_next_due : forall a cl ops l1 e now l2, log (run a cl ops) = l1 ++ LRun e now :: l2 ->
  In e (pending l1) /\ e_ts e <= now /\ forall e', In e' (pending l1) -> e' = e \/ before e e'.
Proof. intros a cl ops l1 e now l2 E. exact (i_log _ (run_all_inv a cl ops) l1 (LRun e now) l2 E). Qed.

(** When [service] returns, nothing that is pending is due. *)
Theorem C32_service_complete : forall a cl ops l1 l2,
  (forall now, log (run a cl ops) = l1 ++ LEnd now :: l2 -> forall e, In e (pending l1) -> now < e_ts e) /\
  (log (run a cl ops) = l1 ++ LIdle :: l2 -> pending l1 = []).
Proof.
  intros a cl ops l1 l2. split; [intros now E|intros E].
  - exact (i_log _ (run_all_inv a cl ops) l1 (LEnd now) l2 E).
  - exact (i_log _ (run_all_inv a cl ops) l1 LIdle l2 E).
Qed.

Lemma call_clock a : (forall d c s, (length (clock (schedule d c s)) <= length (clock s))%nat) /\
  (forall l s, (length (clock (do_actions a l s)) <= length (clock s))%nat) /\
  (forall c s, (length (clock (call a c s)) <= length (clock s))%nat).
Proof.
  assert (A : forall d c s, (length (clock (schedule d c s)) <= length (clock s))%nat).
  { intros d c s. unfold schedule. destruct (clock s); simpl; lia. }
  assert (B : forall l s, (length (clock (do_actions a l s)) <= length (clock s))%nat).
  { induction l as [|x l IH]; intros s; [simpl; lia|]. simpl. etransitivity; [apply IH|].
    unfold do_action. destruct (negb _); [lia|]. destruct x; [apply A|simpl; lia| |].
    - unfold start. destruct (interval a r); [|lia]. destruct (active s r); [lia|].
      etransitivity; [apply A|]. simpl. lia.
    - unfold stop. destruct (negb _); simpl; lia. }
  refine (conj A (conj B _)). intros [n|r] s; simpl; [apply B|]. destruct (negb (active s r)); [lia|].
  pose proof (B (rprog a r) (note (LCall r) s)) as X. simpl in X.
  destruct (negb _); [exact X|]. destruct (interval a r); [|exact X]. etransitivity; [apply A|exact X].
Qed.

(** [service] does return, unless the clock readings given to the model are used up: the bound
    on the number of its rounds is never what stops it. *)
Theorem C32_service_returns : forall a s, running (service a (S (length (clock s))) s) = true ->
  exists l, log (service a (S (length (clock s))) s) = l ++ [LIdle] \/
    exists now, log (service a (S (length (clock s))) s) = l ++ [LEnd now].
Proof.
  intros a s. assert (G : forall fuel s, (length (clock s) < fuel)%nat -> running (service a fuel s) = true ->
    exists l, log (service a fuel s) = l ++ [LIdle] \/ exists now, log (service a fuel s) = l ++ [LEnd now]).
  { clear s. induction fuel as [|fuel IH]; intros s L; [lia|]. cbn [service].
    destruct (queue s) as [|e q]; [intros _; exists (log s); left; reflexivity|].
    destruct (clock s) as [|now cl] eqn:C; [discriminate|].
    destruct (e_ts e <=? now).
    - set (s1 := call a (e_cb e) _). assert (L1 : (length (clock s1) <= length cl)%nat).
      { unfold s1. etransitivity; [apply (proj2 (proj2 (call_clock a)))|]. simpl. lia. }
      clearbody s1. destruct (running s1) eqn:R; [|congruence]. apply IH. simpl in L. lia.
    - intros _. exists (log s). right. exists now. reflexivity. }
  apply G. lia.
Qed.

(** No event runs twice. *)
Lemma pending_sub l1 l2 e : In e (pending (l1 ++ l2)) -> In e (pending l1) \/ In (LSched e) l2.
Proof.
  induction l2 as [|x l2 IH] using rev_ind; [rewrite app_nil_r; auto|]. rewrite app_assoc, pending_snoc. intros X.
  assert (Y : In e (pending (l1 ++ l2)) -> In e (pending l1) \/ In (LSched e) (l2 ++ [x])).
  { intros Y. destruct (IH Y) as [Z|Z]; [left; exact Z|right; apply in_or_app; left; exact Z]. }
  destruct x; simpl in X; try (apply Y, X).
  - apply in_app_or in X as [X|[<-|[]]]; [apply Y, X|right; apply in_or_app; right; left; reflexivity].
  - apply filter_In in X as (X & _). apply Y, X.
  - apply filter_In in X as (X & _). apply Y, X.
Qed.
Theorem C32_runs_once : forall a cl ops l1 e now l2 now' l3,
  log (run a cl ops) = l1 ++ LRun e now :: l2 ++ LRun e now' :: l3 -> False.
Proof.
  intros a cl ops l1 e now l2 now' l3 E. pose proof (run_all_inv a cl ops) as [_ _ _ _ L].
  assert (E2 : log (run a cl ops) = ((l1 ++ [LRun e now]) ++ l2) ++ LRun e now' :: l3).
  { rewrite E, <- !app_assoc. reflexivity. }
  pose proof (L _ _ _ E2) as (P & _). apply pending_sub in P as [P|P].
  - rewrite pending_snoc in P. simpl in P. apply filter_In in P as (_ & P). rewrite Nat.eqb_refl in P. discriminate.
  - (* scheduled again later: the number would be fresh *)
    apply in_split in P as (m1 & m2 & ->).
    assert (E3 : log (run a cl ops) = (l1 ++ LRun e now :: m1) ++ LSched e :: m2 ++ LRun e now' :: l3).
    { rewrite E, <- !app_assoc. simpl. rewrite <- ?app_assoc. reflexivity. }
    pose proof (L _ _ _ E3) as F. simpl in F.
    pose proof (L l1 (LRun e now) _ E) as (P & _).
    assert (In (LSched e) l1).
    { destruct (pending_sub [] l1 e) as [X|X]; [exact P|destruct X|exact X]. }
    specialize (F e (or_intror (in_or_app _ _ _ (or_introl H)))). lia.
Qed.

(** After a callback was cancelled it is called only for events scheduled later. *)
Theorem C32_never_after_cancel : forall a cl ops l1 l2 e now l3,
  log (run a cl ops) = l1 ++ LCancel (e_cb e) :: l2 ++ LRun e now :: l3 -> In (LSched e) l2.
Proof.
  intros a cl ops l1 l2 e now l3 E. pose proof (run_all_inv a cl ops) as [_ _ _ _ L].
  assert (E2 : log (run a cl ops) = ((l1 ++ [LCancel (e_cb e)]) ++ l2) ++ LRun e now :: l3).
  { rewrite E, <- !app_assoc. reflexivity. }
  pose proof (L _ _ _ E2) as (P & _). apply pending_sub in P as [P|P]; [|exact P].
  rewrite pending_snoc in P. simpl in P. apply filter_In in P as (_ & P).
  assert (callback_eqb (e_cb e) (e_cb e) = true) by (apply callback_eqb_eq; reflexivity). rewrite H in P. discriminate.
Qed.

(** ** RepeatingTimer *)

(** whether a repeating timer is active: it was started and not stopped since *)
Definition is_on (l : list entry) (r : nat) : bool :=
  fold_left (fun b x => match x with
    | LStart r' => if (r' =? r)%nat then true else b
    | LStop r' => if (r' =? r)%nat then false else b
    | _ => b end) l false.
Lemma is_on_snoc l x r : is_on (l ++ [x]) r = match x with
    | LStart r' => if (r' =? r)%nat then true else is_on l r
    | LStop r' => if (r' =? r)%nat then false else is_on l r
    | _ => is_on l r end.
Proof. unfold is_on. rewrite fold_left_app. reflexivity. Qed.

Record rinv (s : state) : Prop := {
  r_on : forall r, active s r = is_on (log s) r;
  r_call : forall l1 r l2, log s = l1 ++ LCall r :: l2 -> is_on l1 r = true }.

Lemma rinv_snoc s s' x : rinv s -> log s' = log s ++ [x] -> (forall r, active s' r = is_on (log s') r) ->
  (forall r, x = LCall r -> is_on (log s) r = true) -> rinv s'.
Proof.
  intros [A B] E O C. constructor; [exact O|]. intros l1 r l2 E2. rewrite E in E2.
  destruct l2 as [|z l2] using rev_ind.
  - apply app_inj_tail in E2 as (<- & ->). apply C. reflexivity.
  - clear IHl2. change (l1 ++ LCall r :: l2 ++ [z]) with (l1 ++ (LCall r :: l2) ++ [z]) in E2. rewrite app_assoc in E2.
    apply app_inj_tail in E2 as (E2 & _). eapply B, E2.
Qed.
Lemma rinv_same s s' : active s' = active s -> log s' = log s -> rinv s -> rinv s'.
Proof. intros A B [C D]. constructor; rewrite ?A, ?B; assumption. Qed.
Lemma schedule_rinv d c s : rinv s -> rinv (schedule d c s).
Proof.
  intros H. unfold schedule. destruct (clock s); [apply (rinv_same s); auto|].
  eapply rinv_snoc; [exact H|reflexivity| |discriminate]. intros r. simpl. rewrite is_on_snoc. apply (r_on s H).
Qed.
Lemma cancel_rinv c s : rinv s -> rinv (cancel c s).
Proof.
  intros H. eapply rinv_snoc; [exact H|reflexivity| |discriminate]. intros r. simpl. rewrite is_on_snoc. apply (r_on s H).
Qed.
Lemma do_actions_rinv a l s : rinv s -> rinv (do_actions a l s).
Proof.
  revert s. induction l as [|x l IH]; intros s H; [exact H|]. apply (IH (do_action a x s)). clear IH.
  unfold do_action. destruct (negb _); [exact H|]. destruct x; auto using schedule_rinv, cancel_rinv.
  - unfold start. destruct (interval a r); [|exact H]. destruct (active s r); [exact H|].
    apply schedule_rinv. eapply rinv_snoc; [exact H|reflexivity| |discriminate]. intros r'. simpl. rewrite is_on_snoc.
    rewrite (Nat.eqb_sym r r'). rewrite (r_on s H). destruct (r' =? r)%nat; reflexivity.
  - unfold stop. destruct (negb _); [exact H|].
    apply cancel_rinv. eapply rinv_snoc; [exact H|reflexivity| |discriminate]. intros r'. simpl. rewrite is_on_snoc.
    rewrite (Nat.eqb_sym r r'). rewrite (r_on s H). destruct (r' =? r)%nat; reflexivity.
Qed.
Lemma call_rinv a c s : rinv s -> rinv (call a c s).
Proof.
  intros H. destruct c as [n|r]; simpl; [apply do_actions_rinv, H|].
  destruct (active s r) eqn:A; cbn [negb]; [|exact H].
  assert (J : rinv (do_actions a (rprog a r) (note (LCall r) s))).
  { apply do_actions_rinv. eapply rinv_snoc; [exact H|reflexivity| |].
    - intros r'. simpl. rewrite is_on_snoc. apply (r_on s H).
    - intros r' E. injection E as <-. rewrite <- (r_on s H). exact A. }
  destruct (negb _); [exact J|]. destruct (interval a r); [apply schedule_rinv|]; exact J.
Qed.
Lemma service_rinv a fuel s : rinv s -> rinv (service a fuel s).
Proof.
  revert s. induction fuel as [|fuel IH]; intros s H; [exact H|]. cbn [service].
  assert (N : forall x s', log s' = log s ++ [x] -> active s' = active s ->
    (match x with LStart _ | LStop _ | LCall _ => False | _ => True end) -> rinv s').
  { intros x s' E A T. eapply rinv_snoc; [exact H|exact E| |].
    - intros r. rewrite A, E, is_on_snoc. destruct x; try contradiction; apply (r_on s H).
    - intros r ->. destruct T. }
  destruct (queue s) as [|e q]; [eapply N; [reflexivity|reflexivity|exact I]|].
  destruct (clock s) as [|now cl]; [apply (rinv_same s); auto|].
  destruct (e_ts e <=? now).
  - assert (J : rinv (call a (e_cb e) (State q (next s) (active s) cl (running s) (log s ++ [LRun e now])))).
    { apply call_rinv. eapply N; [reflexivity|reflexivity|exact I]. }
    set (s1 := call a (e_cb e) _) in *. clearbody s1. destruct (running s1); [apply IH|]; exact J.
  - eapply N; [reflexivity|reflexivity|exact I].
Qed.
Lemma run_rinv a cl ops : rinv (run a cl ops).
Proof.
  unfold run. assert (J : rinv (init cl)).
  { constructor; [reflexivity|]. intros l1 r l2 E. destruct l1; discriminate. }
  revert J. generalize (init cl). induction ops as [|o ops IH]; intros s H; [exact H|]. simpl. apply IH.
  unfold step. destruct (negb _); [exact H|]. destruct o; [apply (do_actions_rinv a [x]), H|apply service_rinv, H].
Qed.

(** The user callback of a repeating timer is called only while the timer is started. *)
Theorem C45_only_when_started : forall a cl ops l1 r l2,
  log (run a cl ops) = l1 ++ LCall r :: l2 -> is_on l1 r = true.
Proof. intros a cl ops l1 r l2 E. exact (r_call _ (run_rinv a cl ops) l1 r l2 E). Qed.

(** [schedule] makes the callback pending for the given delay after the current time, [start] the
    timer's callback for one interval after it. *)
Theorem C32_scheduled_for : forall a s d n now cl, running s = true -> clock s = now :: cl ->
  exists e, pending (log (step a s (OAct (ASchedule d n)))) = pending (log s) ++ [e] /\
    e_ts e = now + d /\ e_cb e = Plain n.
Proof.
  intros a s d n now cl R C. unfold step, do_action. rewrite R. cbn [negb]. unfold schedule. rewrite C. simpl.
  rewrite pending_snoc. simpl. eexists. refine (conj eq_refl (conj eq_refl eq_refl)).
Qed.
(** [cancel] leaves exactly the events of the other callbacks pending. *)
Theorem C32_cancelled : forall a s n, running s = true ->
  pending (log (step a s (OAct (ACancel n)))) = filter (fun e => negb (callback_eqb (e_cb e) (Plain n))) (pending (log s)).
Proof. intros a s n R. unfold step, do_action. rewrite R. cbn [negb]. unfold cancel. simpl. rewrite pending_snoc. reflexivity. Qed.
(** [stop] makes the timer stopped and leaves exactly the other events pending. *)
Theorem C45_stopped : forall a cl ops r, let s := run a cl ops in running s = true -> is_on (log s) r = true ->
  is_on (log (step a s (OAct (AStop r)))) r = false /\
  pending (log (step a s (OAct (AStop r)))) = filter (fun e => negb (callback_eqb (e_cb e) (Wrapped r))) (pending (log s)).
Proof.
  intros a cl ops r s R O. unfold step, do_action. rewrite R. cbn [negb]. unfold stop.
  unfold s in O |- *. rewrite (r_on _ (run_rinv a cl ops)), O. fold s. cbn [negb]. simpl.
  rewrite !pending_snoc, !is_on_snoc, Nat.eqb_refl. split; reflexivity.
Qed.
Theorem C45_started_for : forall a cl0 ops r i now cl, let s := run a cl0 ops in running s = true -> clock s = now :: cl ->
  interval a r = Some i -> is_on (log s) r = false ->
  exists e, pending (log (step a s (OAct (AStart r)))) = pending (log s) ++ [e] /\
    e_ts e = now + i /\ e_cb e = Wrapped r.
Proof.
  intros a cl0 ops r i now cl s R C Hi O. unfold step, do_action. rewrite R. cbn [negb]. unfold start. rewrite Hi.
  unfold s in O |- *. rewrite (r_on _ (run_rinv a cl0 ops)), O. fold s. unfold schedule. simpl. rewrite C. simpl.
  rewrite !pending_snoc. simpl. eexists. refine (conj eq_refl (conj eq_refl eq_refl)).
Qed.

Lemma schedule_grows d c s : exists pre l, clock s = pre ++ clock (schedule d c s) /\ log (schedule d c s) = log s ++ l.
Proof.
  unfold schedule. destruct (clock s) as [|now cl] eqn:E; simpl.
  - exists [], []. split; [reflexivity|symmetry; apply app_nil_r].
  - exists [now]. eexists. split; reflexivity.
Qed.
Lemma do_actions_grows a l s : exists pre l', clock s = pre ++ clock (do_actions a l s) /\ log (do_actions a l s) = log s ++ l'.
Proof.
  revert s. induction l as [|x l IH]; intros s; [exists [], []; split; [reflexivity|symmetry; apply app_nil_r]|].
  assert (A : exists pre l', clock s = pre ++ clock (do_action a x s) /\ log (do_action a x s) = log s ++ l').
  { unfold do_action. destruct (negb _); [exists [], []; split; [reflexivity|symmetry; apply app_nil_r]|].
    destruct x as [d n|n|r|r]; [apply schedule_grows|exists []; eexists; split; reflexivity| |].
    - unfold start. destruct (interval a r) as [i|]; [|exists [], []; split; [reflexivity|symmetry; apply app_nil_r]].
      destruct (active s r); [exists [], []; split; [reflexivity|symmetry; apply app_nil_r]|].
      destruct (schedule_grows i (Wrapped r) (note (LStart r) (with_active (fun x => (x =? r)%nat || active s x) s))) as (p & l' & E1 & E2).
      exists p. eexists. rewrite E2. simpl in *. rewrite <- app_assoc. split; [exact E1|reflexivity].
    - unfold stop. destruct (negb _); [exists [], []; split; [reflexivity|symmetry; apply app_nil_r]|].
      exists []. eexists. simpl. rewrite <- app_assoc. split; reflexivity. }
  destruct A as (p & l1 & E1 & E2). destruct (IH (do_action a x s)) as (p' & l2 & E3 & E4).
  exists (p ++ p'), (l1 ++ l2). change (do_actions a (x :: l) s) with (do_actions a l (do_action a x s)).
  rewrite E4, E2, <- !app_assoc. split; [|reflexivity]. rewrite E1, E3 at 1. reflexivity.
Qed.

(** When the event of a started repeating timer runs, the user callback is called and afterwards
    the next event is scheduled one interval after the time then. *)
Theorem C45_fires : forall a cl ops r i, let s := run a cl ops in
  is_on (log s) r = true -> interval a r = Some i -> running (call a (Wrapped r) s) = true ->
  exists l e pre now, log (call a (Wrapped r) s) = log s ++ LCall r :: l ++ [LSched e] /\
    e_cb e = Wrapped r /\ e_ts e = now + i /\ clock s = pre ++ now :: clock (call a (Wrapped r) s).
Proof.
  intros a cl ops r i s O Hi. assert (A : active s r = true) by (rewrite <- O; apply (r_on _ (run_rinv a cl ops))).
  clearbody s. clear O. simpl. rewrite A, Hi. cbn [negb].
  destruct (do_actions_grows a (rprog a r) (note (LCall r) s)) as (p & l & E1 & E2).
  set (s1 := do_actions a (rprog a r) (note (LCall r) s)) in *. clearbody s1. simpl in E1, E2.
  destruct (running s1) eqn:R; cbn [negb]; [|congruence]. unfold schedule.
  destruct (clock s1) as [|now cl1] eqn:C; [discriminate|]. intros _. simpl.
  exists l. eexists. exists p, now. rewrite E2, <- !app_assoc. simpl.
  refine (conj eq_refl (conj eq_refl (conj eq_refl E1))).
Qed.

(** the number of pending events of a repeating timer *)
Definition count (r : nat) (q : list ev) : nat :=
  length (filter (fun e => callback_eqb (e_cb e) (Wrapped r)) q).

(** [r] does not stop itself in its own callback *)
Definition no_self_stop (a : app) : Prop := forall r, ~ In (AStop r) (rprog a r).

Lemma count_insert r e q : count r (insert e q) = (count r q + if callback_eqb (e_cb e) (Wrapped r) then 1 else 0)%nat.
Proof.
  unfold count. induction q as [|y q IH]; simpl.
  - destruct (callback_eqb (e_cb e) (Wrapped r)); reflexivity.
  - destruct (e_ts e <? e_ts y); simpl; destruct (callback_eqb (e_cb e) (Wrapped r)) eqn:E1;
      destruct (callback_eqb (e_cb y) (Wrapped r)); simpl; rewrite ?IH; lia.
Qed.
Lemma count_cancel r c q : count r (filter (fun e => negb (callback_eqb (e_cb e) c)) q) =
  if callback_eqb c (Wrapped r) then 0%nat else count r q.
Proof.
  unfold count. induction q as [|y q IH]; simpl; [destruct (callback_eqb c (Wrapped r)); reflexivity|].
  destruct (callback_eqb (e_cb y) c) eqn:E; simpl.
  - rewrite IH. destruct (callback_eqb c (Wrapped r)) eqn:F; [reflexivity|].
    apply callback_eqb_eq in E. rewrite E, F. reflexivity.
  - destruct (callback_eqb (e_cb y) (Wrapped r)) eqn:G; simpl; rewrite IH; [|reflexivity].
    destruct (callback_eqb c (Wrapped r)) eqn:F; [|reflexivity].
    apply callback_eqb_eq in F, G. assert (callback_eqb (e_cb y) c = true) by (apply callback_eqb_eq; congruence). congruence.
Qed.

(** one pending event for each active timer; [skip] is the timer whose callback is running *)
Definition cinv (skip : option nat) (s : state) : Prop := running s = true -> forall r,
  count r (queue s) = (if active s r then if match skip with Some k => (k =? r)%nat | None => false end then 0 else 1 else 0)%nat.
Definition skip_active (skip : option nat) (s : state) : Prop :=
  match skip with Some k => active s k = true | None => True end.

Lemma do_action_cinv a skip x s : cinv skip s -> skip_active skip s -> (forall k, skip = Some k -> x <> AStop k) ->
  cinv skip (do_action a x s) /\ skip_active skip (do_action a x s).
Proof.
  intros C K N. unfold do_action. destruct (running s) eqn:R; cbn [negb]; [|split; assumption].
  pose proof (C R) as C0. destruct x as [d n|n|r|r].
  - unfold schedule. destruct (clock s); [split; [discriminate|exact K]|]. split; [|exact K].
    intros _ r. simpl. rewrite count_insert, C0. simpl. lia.
  - split; [|exact K]. intros _ r. simpl. rewrite count_cancel. simpl. apply C0.
  - unfold start. destruct (interval a r) as [i|]; [|split; assumption]. destruct (active s r) eqn:A; [split; assumption|].
    unfold schedule. simpl. destruct (clock s); [split; [discriminate|]|split].
    + destruct skip as [k|]; [|exact I]. simpl in *. rewrite K, orb_true_r. reflexivity.
    + intros _ r'. simpl. rewrite count_insert, C0. simpl. rewrite (Nat.eqb_sym r' r).
      destruct (Nat.eqb_spec r r') as [<-|Nr]; simpl; [|lia]. rewrite A.
      destruct skip as [k|]; [|reflexivity]. destruct (Nat.eqb_spec k r) as [->|Nk]; [|reflexivity]. simpl in K. congruence.
    + destruct skip as [k|]; [|exact I]. simpl in *. rewrite K, orb_true_r. reflexivity.
  - unfold stop. destruct (active s r) eqn:A; cbn [negb]; [|split; assumption]. split.
    + intros _ r'. simpl. rewrite count_cancel. simpl. rewrite (Nat.eqb_sym r' r). destruct (Nat.eqb_spec r r') as [<-|Nr]; simpl; [reflexivity|apply C0].
    + destruct skip as [k|]; [|exact I]. simpl in *. rewrite K, andb_true_r.
      destruct (Nat.eqb_spec k r) as [->|Nk]; [|reflexivity]. destruct (N r eq_refl eq_refl).
Qed.
Lemma do_actions_cinv a skip l s : cinv skip s -> skip_active skip s -> (forall k, skip = Some k -> ~ In (AStop k) l) ->
  cinv skip (do_actions a l s) /\ skip_active skip (do_actions a l s).
Proof.
  revert s. induction l as [|x l IH]; intros s C K N; [split; assumption|].
  destruct (do_action_cinv a skip x s C K) as (C1 & K1).
  { intros k E ->. apply (N k E). left. reflexivity. }
  apply (IH (do_action a x s) C1 K1). intros k E X. apply (N k E). right. exact X.
Qed.
(** the timers that may be active have an interval *)
Definition has_interval (a : app) (s : state) : Prop := forall r, active s r = true -> interval a r <> None.
Lemma do_actions_interval a l s : has_interval a s -> has_interval a (do_actions a l s).
Proof.
  revert s. induction l as [|x l IH]; intros s H; [exact H|]. apply (IH (do_action a x s)). clear IH.
  unfold do_action. destruct (negb _); [exact H|]. destruct x as [d n|n|r|r]; auto.
  - unfold schedule. destruct (clock s); exact H.
  - unfold start. destruct (interval a r) eqn:E; [|exact H]. destruct (active s r); [exact H|].
    unfold schedule. simpl. destruct (clock s); intros r'; simpl; intros X; apply orb_prop in X as [X|X];
      try (apply H, X); apply Nat.eqb_eq in X; congruence.
  - unfold stop. destruct (negb _); [exact H|]. intros r'. simpl. intros X. apply andb_prop in X as (_ & X). apply H, X.
Qed.
Lemma call_cinv a e q s cl now : no_self_stop a -> running s = true -> cinv None s -> has_interval a s -> queue s = e :: q ->
  let s' := call a (e_cb e) (State q (next s) (active s) cl (running s) (log s ++ [LRun e now])) in
  cinv None s' /\ has_interval a s'.
Proof.
  intros Ns R C Hi Q. set (s1 := State q (next s) (active s) cl (running s) (log s ++ [LRun e now])).
  pose proof (C R) as C0. rewrite Q in C0.
  destruct (e_cb e) as [n|r] eqn:Ec; simpl.
  - assert (C1 : cinv None s1).
    { intros _ r. specialize (C0 r). unfold count in C0. simpl in C0. rewrite Ec in C0. simpl in C0. exact C0. }
    split; [apply (do_actions_cinv a None (prog a n) s1 C1 I); discriminate|apply do_actions_interval; exact Hi].
  - destruct (active s r) eqn:A; cbn [negb].
    + assert (C1 : cinv (Some r) (note (LCall r) s1)).
      { intros _ r'. specialize (C0 r'). unfold count in C0 |- *. simpl in C0 |- *. rewrite Ec in C0. simpl in C0.
        destruct (Nat.eqb_spec r r') as [<-|Nr]; simpl in C0 |- *.
        - rewrite A in C0 |- *. injection C0 as C0. exact C0.
        - exact C0. }
      destruct (do_actions_cinv a (Some r) (rprog a r) (note (LCall r) s1) C1 A) as (C2 & K2).
      { intros k E. injection E as <-. apply Ns. }
      assert (H2 : has_interval a (do_actions a (rprog a r) (note (LCall r) s1))) by (apply do_actions_interval; exact Hi).
      set (s2 := do_actions a (rprog a r) (note (LCall r) s1)) in *. clearbody s2.
      destruct (running s2) eqn:R2; cbn [negb].
      2: { split; [intros X; congruence|exact H2]. }
      destruct (interval a r) as [i|] eqn:Ei; [|destruct (H2 r K2 Ei)].
      unfold schedule. destruct (clock s2); [split; [discriminate|exact H2]|]. split; [|exact H2].
      intros _ r'. simpl. rewrite count_insert, (C2 R2). simpl.
      simpl in K2. destruct (Nat.eqb_spec r r') as [<-|Nr]; [rewrite K2; reflexivity|lia].
    + (* an inactive timer has no pending event *)
      exfalso. specialize (C0 r). unfold count in C0. simpl in C0. rewrite Ec, A in C0. simpl in C0.
      rewrite Nat.eqb_refl in C0. discriminate.
Qed.
Lemma service_cinv a fuel s : no_self_stop a -> running s = true -> cinv None s -> has_interval a s ->
  cinv None (service a fuel s) /\ has_interval a (service a fuel s).
Proof.
  intros Ns. revert s. induction fuel as [|fuel IH]; intros s R C H; [split; assumption|]. cbn [service].
  destruct (queue s) as [|e q] eqn:Q; [split; [|exact H]; intros X r; specialize (C X r); simpl; rewrite Q in *; exact C|].
  destruct (clock s) as [|now cl]; [split; [discriminate|exact H]|].
  destruct (e_ts e <=? now).
  - destruct (call_cinv a e q s cl now Ns R C H Q) as (C1 & H1).
    set (s1 := call a (e_cb e) _) in *. clearbody s1. destruct (running s1) eqn:R1; [apply IH; assumption|split; assumption].
  - split; [|exact H]. intros X r. specialize (C X r). simpl. rewrite Q in C. exact C.
Qed.

(** As long as no repeating timer stops itself in its own callback, every started timer has
    exactly one pending call and every stopped one has none. *)
Theorem C45_one_pending_partial : forall a cl ops r, no_self_stop a -> running (run a cl ops) = true ->
  length (filter (fun e => callback_eqb (e_cb e) (Wrapped r)) (queue (run a cl ops))) =
  if is_on (log (run a cl ops)) r then 1%nat else 0%nat.
Proof.
  intros a cl ops r Ns R.
  assert (G : cinv None (run a cl ops) /\ has_interval a (run a cl ops)).
  { clear R. unfold run. assert (J : cinv None (init cl) /\ has_interval a (init cl)).
    { split; [intros _ k; reflexivity|intros k; discriminate]. }
    revert J. generalize (init cl). induction ops as [|o ops IH]; intros s (C & H); [split; assumption|]. simpl. apply IH.
    unfold step. destruct (running s) eqn:R; cbn [negb]; [|split; assumption].
    destruct o; [|apply service_cinv; assumption]. split.
    - apply (do_action_cinv a None x s C I). discriminate.
    - apply (do_actions_interval a [x] s H). }
  destruct G as (C & _). rewrite <- (r_on _ (run_rinv a cl ops)). exact (C R r).
Qed.

(** Finding.  A RepeatingTimer which stops itself in its callback is scheduled again all the
    same; when it is started again before that event comes, it is called twice in each interval
    from then on. *)
Definition stopper : app := App (fun _ => []) (fun _ => [AStop 0]) (fun _ => Some 10).
Theorem C45_one_pending_refuted : exists a cl ops r, running (run a cl ops) = true /\
  is_on (log (run a cl ops)) r = true /\
  (2 <= length (filter (fun e => callback_eqb (e_cb e) (Wrapped r)) (queue (run a cl ops))))%nat.
Proof.
  exists stopper, [0; 10; 10; 10; 15], [OAct (AStart 0); OService; OAct (AStart 0)], 0%nat.
  vm_compute. repeat constructor.
Qed.

(** ** A case *)
(** two plain callbacks at the same time, one later, one cancelled; a repeating timer *)
Definition ex_app : app := App (fun n => if (n =? 1)%nat then [ASchedule 5 2; ACancel 3] else []) (fun _ => []) (fun _ => Some 10).
Example C32_ex : let s := run ex_app [0; 0; 0; 0; 4; 10; 10; 10; 10; 15; 15; 15; 15; 15]
    [OAct (AStart 0); OAct (ASchedule 10 1); OAct (ASchedule 10 2); OAct (ASchedule 12 3); OService; OService] in
  running s = true /\ no_self_stop ex_app /\
  map (fun x => match x with LRun e now => (e_id e, now) | _ => (99%nat, 0) end)
    (filter (fun x => match x with LRun _ _ => true | _ => false end) (log s)) = [(0%nat, 10); (1%nat, 10); (2%nat, 15); (5%nat, 15)] /\
  map e_id (queue s) = [4%nat].
Proof. vm_compute. auto. Qed.

Print Assumptions C32_runs_next_due.
Print Assumptions C32_service_complete.
Print Assumptions C32_service_returns.
Print Assumptions C32_runs_once.
Print Assumptions C32_never_after_cancel.
Print Assumptions C32_scheduled_for.
Print Assumptions C32_cancelled.
Print Assumptions C45_stopped.
Print Assumptions C45_started_for.
Print Assumptions C45_fires.
Print Assumptions C45_only_when_started.
Print Assumptions C45_one_pending_partial.
Print Assumptions C45_one_pending_refuted.
