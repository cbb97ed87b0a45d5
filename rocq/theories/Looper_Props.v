(** C106: every part of a node gets its turn. *)
From Coq Require Import List Arith Bool Lia.
From Verif Require Import Looper_Model Looper_Spec.
Import ListNotations.

Lemma turns_app a b : turns (a ++ b) = turns a ++ turns b.
Proof. induction a as [|[n|n|n] a IH]; cbn; auto. rewrite IH. reflexivity. Qed.
Lemma turns_started l : turns (map Started l) = [].
Proof. induction l; cbn; auto. Qed.
Lemma turns_stopped l : turns (map Stopped l) = [].
Proof. induction l; cbn; auto. Qed.

(** *** single calls *)
Lemma add_some s n s' : add s n = Some s' -> ~ In n (prodables s) /\ prodables s' = prodables s ++ [n] /\ turns (events s') = turns (events s) /\
  run_fut s' = run_fut s /\ running s' = running s /\ auto_start s' = auto_start s /\ events s' = events s ++ (if auto_start s then [Started n] else []).
Proof.
  unfold add. destruct (existsb (Nat.eqb n) (prodables s)) eqn:E; [discriminate|]. intros [= <-]. cbn.
  split; [|split; [reflexivity|split]].
  - intros I. assert (X : existsb (Nat.eqb n) (prodables s) = true) by (apply existsb_exists; exists n; split; [exact I|apply Nat.eqb_refl]). congruence.
  - destruct (auto_start s); [rewrite turns_app; cbn; rewrite app_nil_r|]; reflexivity.
  - destruct (auto_start s); rewrite ?app_nil_r; auto.
Qed.
Lemma remove1_some n l r : remove1 n l = Some r -> exists a b, l = a ++ n :: b /\ r = a ++ b /\ ~ In n a.
Proof.
  revert r. induction l as [|m q IH]; intros r; cbn; [discriminate|]. destruct (n =? m) eqn:E.
  - apply Nat.eqb_eq in E; subst. intros [= <-]. exists [], q. auto.
  - destruct (remove1 n q) as [x|]; [|discriminate]. intros [= <-]. destruct (IH x eq_refl) as (a & b & -> & -> & A).
    exists (m :: a), b. repeat split. apply Nat.eqb_neq in E. intros [F|F]; [congruence|auto].
Qed.
Lemma remove1_none n l : remove1 n l = None -> ~ In n l.
Proof.
  induction l as [|m q IH]; cbn; [auto|]. destruct (n =? m) eqn:E; [discriminate|].
  destruct (remove1 n q); [discriminate|]. intros _ [F|F]; [apply Nat.eqb_neq in E; congruence|]. apply IH; auto.
Qed.

(** adding: known afterwards, last in the order, started at once if the looper starts its prodables; an equal name is refused *)
Theorem C106_add : forall s n,
  (In n (prodables s) /\ add s n = None) \/
  (~ In n (prodables s) /\ exists s', add s n = Some s' /\ prodables s' = prodables s ++ [n] /\ events s' = events s ++ (if auto_start s then [Started n] else [])).
Proof.
  intros s n. destruct (add s n) as [s'|] eqn:E.
  - right. destruct (add_some _ _ _ E) as (A & B & _ & _ & _ & _ & C). split; [exact A|]. exists s'. auto.
  - left. split; [|reflexivity]. unfold add in E. destruct (existsb (Nat.eqb n) (prodables s)) eqn:F; [|discriminate].
    apply existsb_exists in F. destruct F as (x & I & G). apply Nat.eqb_eq in G. subst. exact I.
Qed.
(** removing: the object, or whoever has the name, is taken off and the others stay in order; an object that is not there is
    an error, a name that is not there changes nothing; no events *)
Theorem C106_remove : forall s n,
  (~ In n (prodables s) /\ remove s n = None /\ remove_name s n = s) \/
  (exists a b, prodables s = a ++ n :: b /\ ~ In n a /\ exists s', remove s n = Some s' /\ remove_name s n = s' /\ prodables s' = a ++ b /\ events s' = events s).
Proof.
  intros s n. unfold remove, remove_name. destruct (remove1 n (prodables s)) as [l|] eqn:E.
  - right. destruct (remove1_some _ _ _ E) as (a & b & A & B & C). exists a, b. split; [exact A|]. split; [exact C|]. eexists. split; [reflexivity|]. auto.
  - left. split; [apply remove1_none, E|auto].
Qed.
(** looking: [hasProdable] says who is in the list *)
Theorem C106_has : forall s n, has s n = true <-> In n (prodables s).
Proof.
  intros s n. unfold has. rewrite existsb_exists. split.
  - intros (x & I & E). apply Nat.eqb_eq in E. subst. exact I.
  - intros I. exists n. split; [exact I|apply Nat.eqb_refl].
Qed.

(** *** invariants kept by every operation *)
Section Loop.
Variable react : nat -> list event -> option (nat * list act).
Notation pass := (pass react).
Notation turn := (turn react).
Notation shutdown := (shutdown react).
Notation step := (step react).
Notation run := (run react).

Section Inv.
Variable P : looper -> Prop.
Hypothesis Padd : forall s n s', P s -> add s n = Some s' -> P s'.
Hypothesis Prem : forall s l n, P s -> remove1 n (prodables s) = Some l -> P (set_prodables s l).
Hypothesis Psig : forall s, P s -> P (signal s).
Hypothesis Ptask : forall s t, P s -> P (set_task s t).
Hypothesis Pprod : forall s n, P s -> In n (prodables s) -> P (emit s [Prodded n]).
Hypothesis Pstop : forall s, P s -> P (stop_all s).
Lemma inv_acts l : forall s, P s -> P (fst (do_acts s l)).
Proof.
  induction l as [|[n|n|] l IH]; intros s H; cbn; auto.
  - destruct (add s n) as [s'|] eqn:E; [apply IH; eapply Padd; eauto|exact H].
  - unfold remove. destruct (remove1 n (prodables s)) as [r|] eqn:E; [apply IH; eapply Prem; eauto|exact H].
Qed.
Lemma inv_pass f : forall i s c, P s -> P (finish (pass f i s c)).
Proof.
  induction f as [|f IH]; intros i s c H; cbn [Looper_Model.pass]; destruct (nth_error (prodables s) i) as [n|] eqn:E; cbn [finish]; auto.
  apply nth_error_In in E. pose proof (Pprod _ _ H E) as H1.
  destruct (react n (events s)) as [[k l]|]; cbn [finish]; auto.
  pose proof (inv_acts l _ H1) as H2. destruct (do_acts (emit s [Prodded n]) l) as [s2 ok]. cbn [fst] in H2.
  destruct ok; cbn [finish]; auto.
Qed.
Lemma inv_step s o : P s -> P (step s o).
Proof.
  intros H. destruct o as [n|n|n| |f|b f]; cbn [Looper_Model.step].
  - destruct (add s n) as [s'|] eqn:E; [eapply Padd; eauto|exact H].
  - unfold remove. destruct (remove1 n (prodables s)) as [r|] eqn:E; [eapply Prem; eauto|exact H].
  - unfold remove_name. destruct (remove1 n (prodables s)) as [r|] eqn:E; [eapply Prem; eauto|exact H].
  - auto.
  - unfold Looper_Model.turn. destruct (run_fut s); auto. destruct (running s); auto. apply inv_pass, H.
  - unfold Looper_Model.shutdown. apply Psig in H. destruct (run_fut (signal s)); auto.
    destruct b.
    + apply (inv_pass f 0 _ 0) in H. destruct (run_fut (finish (pass f 0 (signal s) 0))); auto.
    + destruct (run_fut (signal s)); auto.
Qed.
Lemma inv_run os : forall s, P s -> P (run s os).
Proof. induction os as [|o os IH]; intros s H; cbn; auto. apply IH, inv_step, H. Qed.
End Inv.

(** no two prodables of one name, if the looper was made without *)
Theorem C106_names : forall ps auto os, NoDup ps -> NoDup (prodables (run (make ps auto) os)).
Proof.
  intros ps auto os N. apply (inv_run (fun s => NoDup (prodables s))); cbn; auto.
  - intros s n s' H E. destruct (add_some _ _ _ E) as (A & -> & _). clear - H A. induction (prodables s) as [|m q IH]; cbn; [repeat constructor; auto|].
    inversion H; subst. constructor; [|apply IH; auto; intros I; apply A; right; exact I].
    intros I. apply in_app_or in I. destruct I as [I|[->|[]]]; [auto|]. apply A. left. reflexivity.
  - intros s l n H E. destruct (remove1_some _ _ _ E) as (a & b & F & -> & _). rewrite F in H. eapply NoDup_remove_1; eauto.
Qed.

(** with [autoStart], nobody is given a turn before being started *)
Theorem C106_started : forall ps os, started_first (events (run (make ps true) os)).
Proof.
  intros ps os.
  assert (H : (fun s => auto_start s = true /\ (forall n, In n (prodables s) -> In (Started n) (events s)) /\ started_first (events s)) (run (make ps true) os)).
  2:{ apply H. }
  assert (SF : forall e e', started_first e -> turns e' = [] -> started_first (e ++ e')).
  { intros e e' S1 T a n b E. destruct (le_lt_dec (length e) (length a)) as [L|L].
    - exfalso. assert (X : exists a', a = e ++ a').
      { clear - E L. revert a E L. induction e as [|x e IH]; intros a E L; [exists a; reflexivity|]. destruct a as [|y a]; cbn in *; [lia|].
        injection E as <- E. destruct (IH a E) as [a' ->]; [lia|]. exists a'. reflexivity. }
      destruct X as [a' ->]. rewrite <- app_assoc in E. apply app_inv_head in E. subst e'. rewrite turns_app in T. cbn in T. destruct (turns a'); discriminate.
    - assert (X : exists b', e = a ++ Prodded n :: b').
      { clear - E L. revert a E L. induction e as [|x e IH]; intros a E L; cbn in *; [lia|]. destruct a as [|y a]; cbn in *.
        - injection E as -> E. exists e. reflexivity.
        - injection E as -> E. destruct (IH a E) as [b' ->]; [lia|]. exists b'. reflexivity. }
      destruct X as [b' X]. eapply S1. exact X. }
  apply inv_run.
  - intros s n s' (A & B & C) E. destruct (add_some _ _ _ E) as (_ & P & _ & _ & _ & Q & R). rewrite A in *. rewrite P, R. repeat split; auto.
    intros m I. apply in_or_app. apply in_app_or in I. destruct I as [I|[->|[]]]; [left; auto|right; left; reflexivity].
  - intros s l n (A & B & C) E. cbn. repeat split; auto. destruct (remove1_some _ _ _ E) as (a & b & F & -> & _). intros m I. apply B. rewrite F.
    apply in_app_or in I. apply in_or_app. cbn. tauto.
  - intros s H. exact H.
  - intros s t H. exact H.
  - intros s n (A & B & C) I. cbn. repeat split; auto; [intros m J; apply in_or_app; auto|].
    intros a m b E. destruct (list_eq_dec (fun x y : event => ltac:(repeat decide equality) : {x = y} + {x <> y}) b []) as [->|Nb].
    + change (Prodded m :: []) with ([Prodded m]) in E. apply app_inj_tail in E. destruct E as [<- [= <-]]. auto.
    + destruct (exists_last Nb) as (b' & x & ->). rewrite app_comm_cons, app_assoc in E. apply app_inj_tail in E. destruct E as [E _]. eapply C. exact E.
  - intros s (A & B & C). cbn. repeat split; auto; [intros m J; apply in_or_app; auto|]. apply SF; [exact C|apply turns_stopped].
  - cbn. repeat split; auto; [intros n I; apply in_map; exact I|].
    change (map Started ps) with ([] ++ map Started ps). apply SF; [intros a n b E; destruct a; discriminate|apply turns_started].
Qed.

(** *** one pass *)
Lemma acts_add l : (forall m, ~ In (ARemove m) l) -> forall s, exists q, prodables (fst (do_acts s l)) = prodables s ++ q /\ turns (events (fst (do_acts s l))) = turns (events s).
Proof.
  induction l as [|[n|n|] l IH]; intros H s; cbn [do_acts].
  - exists []. cbn. rewrite app_nil_r. auto.
  - assert (H' : forall m, ~ In (ARemove m) l) by (intros m I; apply (H m); right; exact I).
    destruct (add s n) as [s'|] eqn:E; [|exists []; cbn; rewrite app_nil_r; auto].
    destruct (add_some _ _ _ E) as (_ & P & T & _). destruct (IH H' s') as (q & -> & ->). rewrite P, T. exists ([n] ++ q). rewrite app_assoc. auto.
  - elim (H n). left. reflexivity.
  - assert (H' : forall m, ~ In (ARemove m) l) by (intros m I; apply (H m); right; exact I).
    destruct (IH H' (signal s)) as (q & A & B). exists q. auto.
Qed.
(** A pass in which nobody is removed gives exactly one turn to each, in the order of the list, also to those added meanwhile *)
Theorem C106_pass_partial : forall f s s' k, no_removal react -> pass f 0 s 0 = Fin s' k ->
  turns (events s') = turns (events s) ++ prodables s' /\ exists q, prodables s' = prodables s ++ q.
Proof.
  intros f s s' k NR.
  assert (G : forall f i s0 c, i <= length (prodables s0) -> pass f i s0 c = Fin s' k ->
    turns (events s') = turns (events s0) ++ skipn i (prodables s') /\ exists q, prodables s' = prodables s0 ++ q).
  { clear f s. induction f as [|f IH]; intros i s0 c L E; cbn [Looper_Model.pass] in E; destruct (nth_error (prodables s0) i) as [n|] eqn:N; try discriminate.
    - injection E as <- <-. apply nth_error_None in N. rewrite skipn_all2, app_nil_r by lia. split; [reflexivity|]. exists []. rewrite app_nil_r. reflexivity.
    - destruct (react n (events s0)) as [[cc l]|] eqn:R; [|discriminate].
      destruct (acts_add l (fun m => NR _ _ _ _ m R) (emit s0 [Prodded n])) as (q & A & B).
      destruct (do_acts (emit s0 [Prodded n]) l) as [s2 ok]. cbn [fst] in *. destruct ok; [|discriminate].
      assert (Ni : i < length (prodables s0)) by (apply nth_error_Some; congruence).
      cbn [emit prodables events] in A, B. destruct (IH (S i) s2 (c + cc)) as (T & q' & Q); [rewrite A, app_length; lia|exact E|].
      split; [|exists (q ++ q'); rewrite Q, A, app_assoc; reflexivity].
      rewrite T, B, turns_app. cbn [turns]. rewrite <- app_assoc. f_equal.
      rewrite Q, A, <- app_assoc. destruct (nth_error_split _ _ N) as (u & v & F & Lu). rewrite F, <- Lu.
      rewrite <- !app_assoc. cbn [app]. rewrite !skipn_app. rewrite skipn_all, (skipn_all2 (n := S (length u))) by lia.
      replace (length u - length u) with 0 by lia. replace (S (length u) - length u) with 1 by lia. reflexivity.
    - injection E as <- <-. apply nth_error_None in N. rewrite skipn_all2, app_nil_r by lia. split; [reflexivity|]. exists []. rewrite app_nil_r. reflexivity. }
  intros E. destruct (G f 0 s 0 (Nat.le_0_l _) E) as (A & B). rewrite skipn_O in A. auto.
Qed.

Lemma signals_only l : (forall a, In a l -> a = ASignal) -> forall s, snd (do_acts s l) = true /\ prodables (fst (do_acts s l)) = prodables s /\ run_fut (fst (do_acts s l)) = run_fut s /\ events (fst (do_acts s l)) = events s.
Proof.
  induction l as [|a l IH]; intros H s; cbn [do_acts]; [auto|]. rewrite (H a (or_introl eq_refl)).
  destruct (IH (fun x I => H x (or_intror I)) (signal s)) as (A & B & C & D). auto.
Qed.
(** While nobody raises or changes the list, every turn of a running loop gives each prodable one turn, in order *)
Theorem C106_round : forall s f, steady react -> run_fut s = Live -> running s = true -> length (prodables s) <= f ->
  events (turn f s) = events s ++ map Prodded (prodables s) /\ prodables (turn f s) = prodables s /\ run_fut (turn f s) = Live.
Proof.
  intros s f St L R F. unfold Looper_Model.turn. rewrite L, R.
  assert (G : forall f i s0 c, i <= length (prodables s0) -> length (prodables s0) - i <= f -> run_fut s0 = Live ->
     events (finish (pass f i s0 c)) = events s0 ++ map Prodded (skipn i (prodables s0)) /\ prodables (finish (pass f i s0 c)) = prodables s0 /\ run_fut (finish (pass f i s0 c)) = Live).
  { clear s f L R F. induction f as [|f IH]; intros i s0 c I F L; cbn [Looper_Model.pass]; destruct (nth_error (prodables s0) i) as [n|] eqn:N.
    - assert (i < length (prodables s0)) by (apply nth_error_Some; congruence). lia.
    - apply nth_error_None in N. rewrite skipn_all2, app_nil_r by lia. auto.
    - destruct (St n (events s0)) as (cc & l & -> & Sg). destruct (signals_only l Sg (emit s0 [Prodded n])) as (A & B & C & D).
      destruct (do_acts (emit s0 [Prodded n]) l) as [s2 ok]. cbn [fst snd emit prodables run_fut events] in *. subst ok.
      assert (Ni : i < length (prodables s0)) by (apply nth_error_Some; congruence).
      destruct (IH (S i) s2 (c + cc)) as (X & Y & W); [rewrite B; lia|rewrite B; lia|congruence|].
      rewrite X, Y, D, B. repeat split; auto. rewrite <- app_assoc. f_equal. cbn [app].
      destruct (nth_error_split _ _ N) as (u & v & Q & Lu). rewrite Q, <- Lu. rewrite !skipn_app, skipn_all, (skipn_all2 (n := S (length u))) by lia.
      replace (length u - length u) with 0 by lia. replace (S (length u) - length u) with 1 by lia. reflexivity.
    - apply nth_error_None in N. rewrite skipn_all2, app_nil_r by lia. auto. }
  destruct (G f 0 s 0) as (A & B & C); auto; lia.
Qed.

(** the number returned by a pass is the sum over its turns *)
Theorem C106_sum : forall g s f, (forall n e, exists l, react n e = Some (g n, l) /\ forall a, In a l -> a = ASignal) -> length (prodables s) <= f ->
  exists s', pass f 0 s 0 = Fin s' (list_sum (map g (prodables s))).
Proof.
  intros g s f St F.
  assert (G : forall f i s0 c, i <= length (prodables s0) -> length (prodables s0) - i <= f ->
     exists s', pass f i s0 c = Fin s' (c + list_sum (map g (skipn i (prodables s0))))).
  { clear s f F. induction f as [|f IH]; intros i s0 c I F; cbn [Looper_Model.pass]; destruct (nth_error (prodables s0) i) as [n|] eqn:N.
    - assert (i < length (prodables s0)) by (apply nth_error_Some; congruence). lia.
    - apply nth_error_None in N. rewrite skipn_all2 by lia. cbn. rewrite Nat.add_0_r. eauto.
    - destruct (St n (events s0)) as (l & -> & Sg). destruct (signals_only l Sg (emit s0 [Prodded n])) as (A & B & _).
      destruct (do_acts (emit s0 [Prodded n]) l) as [s2 ok]. cbn [fst snd emit prodables] in *. subst ok.
      assert (Ni : i < length (prodables s0)) by (apply nth_error_Some; congruence).
      destruct (IH (S i) s2 (c + g n)) as (s' & X); [rewrite B; lia|rewrite B; lia|]. exists s'. rewrite X, B. f_equal.
      destruct (nth_error_split _ _ N) as (u & v & Q & Lu). rewrite Q, <- Lu. rewrite !skipn_app, skipn_all, (skipn_all2 (n := S (length u))) by lia.
      replace (length u - length u) with 0 by lia. replace (S (length u) - length u) with 1 by lia. cbn. lia.
    - apply nth_error_None in N. rewrite skipn_all2 by lia. cbn. rewrite Nat.add_0_r. eauto. }
  destruct (G f 0 s 0) as (s' & E); [lia|lia|]. exists s'. exact E.
Qed.

(** *** stopping *)
Lemma stopped_stays s os : running s = false ->
  (forall o, In o os -> match o with OShutdown true _ => False | _ => True end) ->
  turns (events (run s os)) = turns (events s) /\ running (run s os) = false.
Proof.
  intros R. revert s R. induction os as [|o os IH]; intros s R H; [auto|]. cbn [Looper_Model.run fold_left]. fold (run (step s o) os).
  assert (K : running (step s o) = false /\ turns (events (step s o)) = turns (events s)).
  { destruct o as [n|n|n| |f|b f]; cbn [Looper_Model.step].
    - destruct (add s n) as [s'|] eqn:E; [destruct (add_some _ _ _ E) as (_ & _ & T & _ & Rn & _); rewrite Rn, T; auto|auto].
    - unfold remove. destruct (remove1 n (prodables s)); auto.
    - unfold remove_name. destruct (remove1 n (prodables s)); auto.
    - auto.
    - unfold Looper_Model.turn. rewrite R. destruct (run_fut s); auto.
    - specialize (H _ (or_introl eq_refl)). destruct b; [destruct H|]. unfold Looper_Model.shutdown. cbn [signal run_fut].
      destruct (run_fut s) eqn:E; cbn; rewrite ?E; cbn; rewrite ?turns_app, ?turns_stopped, ?app_nil_r; auto. }
  destruct K as [K1 K2]. destruct (IH (step s o) K1 (fun x I => H x (or_intror I))) as [A B]. rewrite A, K2. auto.
Qed.
(** Once the loop was asked to stop, by a signal or a shutdown, and no pass is under way, nobody is given a turn any more *)
Theorem C106_stopped : forall s os, running s = false -> (forall o, In o os -> match o with OShutdown true _ => False | _ => True end) ->
  turns (events (run s os)) = turns (events s).
Proof. intros s os R H. apply (stopped_stays s os R H). Qed.
(** A shutdown between two passes stops every prodable, once, and the task is not left there *)
Theorem C106_shutdown : forall s f, run_fut s <> Busy ->
  events (shutdown false f s) = events s ++ map Stopped (prodables s) /\ running (shutdown false f s) = false /\
  run_fut (shutdown false f s) = match run_fut s with Live => Done | t => t end.
Proof.
  intros s f B. unfold Looper_Model.shutdown. cbn [signal run_fut]. destruct (run_fut s) eqn:E; [| | |congruence]; cbn [signal run_fut]; rewrite ?E; auto.
Qed.
(** A shutdown during a pass that comes to its end: those of the pass have their turn, then all are stopped *)
Theorem C106_shutdown_flight_partial : forall s f s' k, run_fut s = Live -> pass f 0 (signal s) 0 = Fin s' k -> run_fut s' = Live ->
  events (shutdown true f s) = events s' ++ map Stopped (prodables s').
Proof. intros s f s' k L E L'. unfold Looper_Model.shutdown. cbn [signal run_fut]. rewrite L. change (Looper (prodables s) (run_fut s) false (auto_start s) (events s)) with (signal s). rewrite E. cbn [finish]. rewrite L'. reflexivity. Qed.

(** *** what does not hold *)
(** one prodable's exception ends the turns of all, for good: nothing restarts the task, and [running] stays as it was *)
Theorem C106_exception_refuted : forall s os, run_fut s = Failed -> turns (events (run s os)) = turns (events s) /\ run_fut (run s os) = Failed.
Proof.
  intros s os. revert s. induction os as [|o os IH]; intros s F; [auto|]. cbn [Looper_Model.run fold_left]. fold (run (step s o) os).
  assert (K : run_fut (step s o) = Failed /\ turns (events (step s o)) = turns (events s)).
  { destruct o as [n|n|n| |f|b f]; cbn [Looper_Model.step].
    - destruct (add s n) as [s'|] eqn:E; [destruct (add_some _ _ _ E) as (_ & _ & T & Rn & _); rewrite Rn, T; auto|auto].
    - unfold remove. destruct (remove1 n (prodables s)); auto.
    - unfold remove_name. destruct (remove1 n (prodables s)); auto.
    - auto.
    - unfold Looper_Model.turn. rewrite F. auto.
    - unfold Looper_Model.shutdown. cbn [signal run_fut]. rewrite F. cbn. rewrite turns_app, turns_stopped, app_nil_r. auto. }
  destruct K as [K1 K2]. destruct (IH _ K1) as [A B]. rewrite A, K2. auto.
Qed.
(** an exception in the pass a shutdown waits for: nobody is stopped *)
Theorem C106_shutdown_refuted : forall s f s', run_fut s = Live -> pass f 0 (signal s) 0 = Exc s' -> events (shutdown true f s) = events s'.
Proof. intros s f s' L E. unfold Looper_Model.shutdown. cbn [signal run_fut]. rewrite L. change (Looper (prodables s) (run_fut s) false (auto_start s) (events s)) with (signal s). rewrite E. reflexivity. Qed.
End Loop.

(** a prodable that takes itself off the list makes the next one miss its turn *)
Definition leaving (n : nat) (_ : list event) : option (nat * list act) := Some (1, if n =? 0 then [ARemove 0] else []).
Theorem C106_removal_refuted : forall m q auto, ~ In 0 (m :: q) ->
  events (turn leaving (S (length q)) (make (0 :: m :: q) auto)) = events (make (0 :: m :: q) auto) ++ Prodded 0 :: map Prodded q.
Proof.
  intros m q auto H. unfold turn. cbn [make run_fut running].
  assert (E : forall f, pass leaving (S f) 0 (make (0 :: m :: q) auto) 0 =
    pass leaving f 1 (Looper (m :: q) Live true auto (events (make (0 :: m :: q) auto) ++ [Prodded 0])) 1) by reflexivity.
  assert (G : forall f i s0 c, (forall x, In x (prodables s0) -> x <> 0) -> i <= length (prodables s0) -> length (prodables s0) - i <= f ->
    events (finish (pass leaving f i s0 c)) = events s0 ++ map Prodded (skipn i (prodables s0))).
  { clear. induction f as [|f IH]; intros i s0 c Z0 I F; cbn [pass]; destruct (nth_error (prodables s0) i) as [n|] eqn:N.
    - assert (i < length (prodables s0)) by (apply nth_error_Some; congruence). lia.
    - apply nth_error_None in N. rewrite skipn_all2, app_nil_r by lia. reflexivity.
    - assert (Nz : (n =? 0) = false) by (apply Nat.eqb_neq, Z0; eapply nth_error_In; eauto).
      assert (Ni : i < length (prodables s0)) by (apply nth_error_Some; congruence).
      unfold leaving at 1. rewrite Nz. cbn [do_acts]. rewrite IH; cbn [emit prodables events]; auto; try lia.
      rewrite <- app_assoc. f_equal. cbn [app].
      destruct (nth_error_split _ _ N) as (u & v & Q & Lu). rewrite Q, <- Lu. rewrite !skipn_app, skipn_all, (skipn_all2 (n := S (length u))) by lia.
      replace (length u - length u) with 0 by lia. replace (S (length u) - length u) with 1 by lia. reflexivity.
    - apply nth_error_None in N. rewrite skipn_all2, app_nil_r by lia. reflexivity. }
  change (Looper (0 :: m :: q) Live true auto (if auto then map Started (0 :: m :: q) else [])) with (make (0 :: m :: q) auto).
  rewrite E, G; cbn [prodables events].
  - cbn [skipn]. rewrite <- app_assoc. reflexivity.
  - intros x J X. subst. apply H. exact J.
  - cbn. lia.
  - cbn. lia.
Qed.
(** who was removed is not stopped by the shutdown *)
Theorem C106_removed_refuted : forall react s n s' f, remove s n = Some s' -> NoDup (prodables s) -> run_fut s <> Busy -> ~ In (Stopped n) (events s) ->
  ~ In (Stopped n) (events (shutdown react false f s')).
Proof.
  intros react s n s' f E N B H. unfold remove in E. destruct (remove1 n (prodables s)) as [l|] eqn:R; [|discriminate]. injection E as <-.
  destruct (C106_shutdown react (set_prodables s l) f B) as (-> & _). cbn [set_prodables prodables events].
  destruct (remove1_some _ _ _ R) as (a & b & F & -> & _). rewrite F in N. apply NoDup_remove_2 in N.
  intros I. apply in_app_or in I. destruct I as [I|I]; [auto|]. apply in_map_iff in I. destruct I as (x & [= ->] & J). auto.
Qed.

(** *** examples: 1 adds 4 in its first turn; 2 raises in its second *)
Definition ex_react (n : nat) (e : list event) : option (nat * list act) :=
  if (n =? 1) && negb (existsb (Nat.eqb 1) (turns e)) then Some (1, [AAdd 4])
  else if (n =? 2) && existsb (Nat.eqb 2) (turns e) then None else Some (2, []).
Example C106_ex :
  turns (events (run ex_react (make [1; 2; 3] true) [OTurn 9])) = [1; 2; 3; 4] /\
  turns (events (run ex_react (make [1; 2; 3] true) [OTurn 9; OTurn 9; OTurn 9])) = [1; 2; 3; 4; 1; 2] /\
  run_fut (run ex_react (make [1; 2; 3] true) [OTurn 9; OTurn 9]) = Failed /\
  events (run ex_react (make [1; 2] true) [OTurn 9; ORemove 1; OShutdown false 9; OTurn 9]) =
    [Started 1; Started 2; Prodded 1; Started 4; Prodded 2; Prodded 4; Stopped 2; Stopped 4] /\
  events (run ex_react (make [1; 2] true) [OTurn 9; OShutdown true 9]) = [Started 1; Started 2; Prodded 1; Started 4; Prodded 2; Prodded 4; Prodded 1; Prodded 2].
Proof. vm_compute. repeat split. Qed.
Example C106_no_removal_ex : no_removal ex_react.
Proof.
  intros n e c l m. unfold ex_react. destruct ((n =? 1) && negb (existsb (Nat.eqb 1) (turns e))); [intros [= <- <-] [F|[]]; discriminate|].
  destruct ((n =? 2) && existsb (Nat.eqb 2) (turns e)); [discriminate|]. intros [= <- <-] [].
Qed.
Example C106_pass_ex : exists s', pass ex_react 9 0 (make [1; 2; 3] true) 0 = Fin s' 7.
Proof. eexists. vm_compute. reflexivity. Qed.
Example C106_steady_ex : steady (fun n e => Some (n, if n =? 3 then [ASignal] else [])).
Proof. intros n e. eexists _, _. split; [reflexivity|]. destruct (n =? 3); cbn; intros a Ha; [destruct Ha as [<-|[]]; reflexivity|destruct Ha]. Qed.

Print Assumptions C106_started.
Print Assumptions C106_pass_partial.
Print Assumptions C106_round.
Print Assumptions C106_exception_refuted.
Print Assumptions C106_removal_refuted.
