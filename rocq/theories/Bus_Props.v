(** C103: the buses call who subscribed, in order, once, and nobody else. *)
From Coq Require Import List Arith Bool Lia.
From Verif Require Import Bus_Model Bus_Spec.
Import ListNotations.

(** *** routers *)
Lemma handlers_put r t l u : handlers (put r t l) u = if t =? u then l else handlers r u.
Proof.
  induction r as [|[v k] q IH]; cbn; [reflexivity|].
  destruct (v =? t) eqn:E; cbn.
  - apply Nat.eqb_eq in E; subst. destruct (t =? u) eqn:F; reflexivity.
  - rewrite IH. destruct (v =? u) eqn:F; [|reflexivity].
    apply Nat.eqb_eq in F; subst. rewrite Nat.eqb_sym, E. reflexivity.
Qed.
Lemma handlers_touch r t u : handlers (touch r t) u = handlers r u.
Proof. unfold touch. rewrite handlers_put. destruct (t =? u) eqn:E; [apply Nat.eqb_eq in E; subst|]; reflexivity. Qed.
Lemma remove_first_some h l l' : remove_first h l = Some l' -> exists a b, l = a ++ h :: b /\ l' = a ++ b /\ ~ In h a.
Proof.
  revert l'. induction l as [|x q IH]; intros l' E; cbn in E; [discriminate|].
  destruct (x =? h) eqn:F.
  - apply Nat.eqb_eq in F; subst. injection E as <-. exists [], q. cbn. auto.
  - destruct (remove_first h q) as [q'|]; [|discriminate]. injection E as <-.
    destruct (IH q' eq_refl) as (a & b & -> & -> & N). exists (x :: a), b. cbn.
    apply Nat.eqb_neq in F. repeat split; auto. intros [G|G]; auto.
Qed.
Lemma remove_first_none h l : remove_first h l = None <-> ~ In h l.
Proof.
  induction l as [|x q IH]; cbn; [tauto|].
  destruct (x =? h) eqn:F.
  - apply Nat.eqb_eq in F; subst. split; [discriminate|]. intros N; elim N; auto.
  - apply Nat.eqb_neq in F. destruct (remove_first h q); split; intros G; try discriminate; try tauto.
    + elim G. right. destruct (in_dec Nat.eq_dec h q); auto. apply IH in n. discriminate.
Qed.
Definition b2n (b : bool) : nat := if b then 1 else 0.
Lemma times_subscribe r u g t h : times (subscribe r u g) t h = times r t h + b2n ((u =? t) && (g =? h)).
Proof.
  unfold times, subscribe. rewrite handlers_put. destruct (u =? t) eqn:E; cbn [andb b2n]; [|lia].
  apply Nat.eqb_eq in E; subst. rewrite count_occ_app. cbn.
  destruct (Nat.eq_dec g h) as [->|N]; [rewrite Nat.eqb_refl|apply Nat.eqb_neq in N; rewrite N]; cbn; lia.
Qed.
Lemma times_unsubscribe r u g r' : unsubscribe r u g = (r', true) ->
  forall t h, times r' t h + b2n ((u =? t) && (g =? h)) = times r t h.
Proof.
  unfold unsubscribe. destruct (remove_first g (handlers r u)) as [l|] eqn:E; [|discriminate].
  intros [= <-] t h. unfold times. rewrite handlers_put. destruct (u =? t) eqn:F; cbn [andb b2n]; [|lia].
  apply Nat.eqb_eq in F; subst. apply remove_first_some in E. destruct E as (a & b & -> & -> & _).
  rewrite !count_occ_app. cbn.
  destruct (Nat.eq_dec g h) as [->|N]; [rewrite Nat.eqb_refl|apply Nat.eqb_neq in N; rewrite N]; cbn; lia.
Qed.
Lemma unsubscribe_false r u g r' : unsubscribe r u g = (r', false) -> times r u g = 0 /\ forall t, handlers r' t = handlers r t.
Proof.
  unfold unsubscribe. destruct (remove_first g (handlers r u)) as [l|] eqn:E; [discriminate|].
  intros [= <-]. split; [|intros; apply handlers_touch].
  apply remove_first_none in E. unfold times. apply count_occ_not_In. exact E.
Qed.

(** unsubscribing takes one subscription away, the oldest of that handler, and leaves the order of the others *)
Theorem C103_unsubscribe : forall r t h r', unsubscribe r t h = (r', true) ->
  (exists a b, handlers r t = a ++ h :: b /\ handlers r' t = a ++ b /\ ~ In h a) /\
  (forall u, u <> t -> handlers r' u = handlers r u).
Proof.
  intros r t h r'. unfold unsubscribe. destruct (remove_first h (handlers r t)) as [l|] eqn:E; [|discriminate].
  intros [= <-]. split.
  - apply remove_first_some in E. destruct E as (a & b & Ea & Eb & N). exists a, b. rewrite handlers_put, Nat.eqb_refl. auto.
  - intros u N. rewrite handlers_put. apply not_eq_sym, Nat.eqb_neq in N. rewrite N. reflexivity.
Qed.
(** it fails exactly when there is none, and then changes nothing *)
Theorem C103_unsubscribe_fails : forall r t h,
  (snd (unsubscribe r t h) = false <-> ~ In h (handlers r t)) /\
  (snd (unsubscribe r t h) = false -> forall u, handlers (fst (unsubscribe r t h)) u = handlers r u).
Proof.
  intros r t h. unfold unsubscribe. destruct (remove_first h (handlers r t)) as [l|] eqn:E; cbn [fst snd].
  - split; [|discriminate]. split; [discriminate|]. intros N. apply remove_first_none in N. congruence.
  - split; [|intros; apply handlers_touch]. split; [|reflexivity]. intros _. apply remove_first_none. exact E.
Qed.
Example C103_unsubscribe_ex :
  let r := subscribe (subscribe (subscribe (subscribe [] 1 5) 1 6) 2 5) 1 5 in
  handlers r 1 = [5; 6; 5] /\ snd (unsubscribe r 1 5) = true /\ handlers (fst (unsubscribe r 1 5)) 1 = [6; 5] /\
  snd (unsubscribe r 1 7) = false.
Proof. repeat split. Qed.

(** *** the machine *)
Section Handlers.
Variable beh : list event -> nat -> msg -> list act.
Notation step := (step beh).
Notation run := (run beh).

Lemma run_S n s : run (S n) s = step (run n s).
Proof. revert s. induction n as [|n IH]; intros s; [reflexivity|]. cbn [Bus_Model.run] in *. rewrite <- IH. reflexivity. Qed.
Lemma run_add a b s : run (a + b) s = run b (run a s).
Proof. revert s. induction a as [|a IH]; intros s; [reflexivity|]. cbn [Bus_Model.run Nat.add]. apply IH. Qed.

Lemma called_app d a b : called d (a ++ b) = called d a ++ called d b.
Proof. induction a as [|[e h m|t h|t h] q IH]; cbn; auto. destruct (e =? d); cbn; congruence. Qed.
Lemma subs_app t h a b : subs t h (a ++ b) = subs t h a + subs t h b.
Proof. induction a as [|[e g m|u g|u g] q IH]; cbn; auto. rewrite IH. lia. Qed.
Lemma unsubs_app t h a b : unsubs t h (a ++ b) = unsubs t h a + unsubs t h b.
Proof. induction a as [|[e g m|u g|u g] q IH]; cbn; auto. rewrite IH. lia. Qed.
Lemma untouched_app t a b : untouched t (a ++ b) -> untouched t a /\ untouched t b.
Proof.
  intros U. split; intros h; destruct (U h) as [A B]; split; intros I;
    (apply A; apply in_or_app; auto; fail) || (apply B; apply in_or_app; auto).
Qed.
Lemma routes_app a b : routes (a ++ b) = routes a + routes b.
Proof. unfold routes. rewrite filter_app, app_length. reflexivity. Qed.

(** *** accounts *)
Lemma account_step s : exists l, log (step s) = log s ++ l /\
  forall t h, times (rt (step s)) t h + unsubs t h l = times (rt s) t h + subs t h l.
Proof.
  destruct s as [r [|[m i|[|[m|t0 h0|t0 h0|] q]] k] lg f]; unfold Bus_Model.step; cbn [stack rt log failed].
  - exists []. rewrite app_nil_r. cbn. auto.
  - destruct (nth_error (handlers r (ty m)) i) as [h|]; cbn [rt log].
    + eexists; split; [reflexivity|]. intros t g. unfold times. rewrite handlers_touch. cbn. lia.
    + exists []. rewrite app_nil_r. split; auto. intros t g. unfold times. rewrite handlers_touch. cbn. lia.
  - exists []. rewrite app_nil_r. cbn. auto.
  - exists []. rewrite app_nil_r. cbn. auto.
  - eexists; split; [reflexivity|]. intros t h. cbn [rt]. rewrite times_subscribe. cbn. unfold b2n. lia.
  - destruct (unsubscribe r t0 h0) as [r' [|]] eqn:E; cbn [rt log].
    + eexists; split; [reflexivity|]. intros t h. pose proof (times_unsubscribe _ _ _ _ E t h) as T. cbn. unfold b2n in T. lia.
    + exists []. rewrite app_nil_r. split; auto. intros t h. apply unsubscribe_false in E. unfold times. rewrite (proj2 E). reflexivity.
  - exists []. rewrite app_nil_r. cbn. auto.
Qed.
(** whatever the handlers do, a handler is subscribed as often as it was subscribed and not unsubscribed *)
Theorem C103_account : forall n s, exists l, log (run n s) = log s ++ l /\
  forall t h, times (rt (run n s)) t h + unsubs t h l = times (rt s) t h + subs t h l.
Proof.
  induction n as [|n IH]; intros s.
  - exists []. rewrite app_nil_r. cbn. auto.
  - rewrite run_S. destruct (IH s) as (l & E & A). destruct (account_step (run n s)) as (l' & E' & A').
    exists (l ++ l'). split; [rewrite E', E, app_assoc; reflexivity|].
    intros t h. rewrite subs_app, unsubs_app. specialize (A t h). specialize (A' t h). lia.
Qed.

(** *** delivery *)
Definition Inv (r0 : router) (lg0 : list event) (m : msg) (k : list frame) (s : bus) : Prop :=
  exists l i, log s = lg0 ++ l /\ deeper (routes k) l /\
    (untouched (ty m) l -> called (routes k) l = map (fun h => (h, m)) (firstn i (handlers r0 (ty m)))) /\
    ((failed s = false /\ (exists fr, stack s = fr ++ Route m i :: k) /\ (untouched (ty m) l -> handlers (rt s) (ty m) = handlers r0 (ty m))) \/
     (failed s = false /\ stack s = k /\ (untouched (ty m) l -> length (handlers r0 (ty m)) <= i)) \/
     (failed s = true /\ stack s = [])).

Lemma firstn_nth {A} (l : list A) i h : nth_error l i = Some h -> firstn (S i) l = firstn i l ++ [h].
Proof.
  revert i. induction l as [|x q IH]; intros [|i] E; cbn in E; try discriminate.
  - injection E as ->. reflexivity.
  - cbn [firstn app]. f_equal. apply IH. exact E.
Qed.
Lemma deeper_app d a b : deeper d a -> deeper d b -> deeper d (a ++ b).
Proof. intros A B e h m I. apply in_app_or in I. destruct I; [eapply A|eapply B]; eassumption. Qed.

Lemma inv_step r0 lg0 m k s : Inv r0 lg0 m k s -> k = [] \/ length k < length (stack s) -> Inv r0 lg0 m k (step s).
Proof.
  intros (l & i & L & D & C & [ (F & (fr & St) & H) | [ (F & St & H) | (F & St) ] ]) K.
  - destruct s as [r st lg f]. cbn [log failed stack rt] in *. subst.
    destruct fr as [|fm fr].
    + cbn [app]. unfold Bus_Model.step. cbn [stack rt log failed].
      destruct (nth_error (handlers r (ty m)) i) as [h|] eqn:N.
      * exists (l ++ [Call (routes k) h m]), (S i). cbn [log stack failed rt].
        split; [rewrite app_assoc; reflexivity|]. split.
        { apply deeper_app; auto. intros e g x [I|[]]. injection I as <- _ _. lia. }
        split.
        { intros U. apply untouched_app in U. destruct U as [U _]. rewrite called_app, (C U). cbn [called]. rewrite Nat.eqb_refl.
          rewrite (H U) in N. rewrite (firstn_nth _ _ _ N), map_app. reflexivity. }
        left. split; auto. split; [exists [Acts (beh (lg0 ++ l) h m)]; reflexivity|].
        intros U. apply untouched_app in U. destruct U as [U _]. rewrite handlers_touch. auto.
      * exists l, i. cbn [log stack failed rt]. repeat split; auto. right; left. repeat split; auto.
        intros U. rewrite (H U) in N. apply nth_error_None. exact N.
    + destruct fm as [m' i'|[|[m'|t h|t h|] q]]; cbn [app] in *; unfold Bus_Model.step; cbn [stack rt log failed].
      * destruct (nth_error (handlers r (ty m')) i') as [h|] eqn:N.
        -- exists (l ++ [Call (routes (fr ++ Route m i :: k)) h m']), i. cbn [log stack failed rt].
           assert (R : routes (fr ++ Route m i :: k) = S (routes k) + routes fr) by (rewrite routes_app; cbn; fold (routes k); lia).
           split; [rewrite app_assoc; reflexivity|]. split.
           { apply deeper_app; auto. intros e g x [I|[]]. injection I as <- _ _. lia. }
           split.
           { intros U. apply untouched_app in U. destruct U as [U _]. rewrite called_app, (C U). cbn [called].
             assert (Q : (routes (fr ++ Route m i :: k) =? routes k) = false) by (apply Nat.eqb_neq; lia).
             rewrite Q, app_nil_r. reflexivity. }
           left. split; auto. split; [exists (Acts (beh (lg0 ++ l) h m') :: Route m' (S i') :: fr); reflexivity|].
           intros U. apply untouched_app in U. destruct U as [U _]. rewrite handlers_touch. auto.
        -- exists l, i. cbn [log stack failed rt]. repeat split; auto. left. repeat split; auto; [exists fr; reflexivity|].
           intros U. rewrite handlers_touch. auto.
      * exists l, i. cbn [log stack failed rt]. repeat split; auto. left. repeat split; auto. exists fr; reflexivity.
      * exists l, i. cbn [log stack failed rt]. repeat split; auto. left. repeat split; auto. exists (Route m' 0 :: Acts q :: fr); reflexivity.
      * exists (l ++ [Subd t h]), i. cbn [log stack failed rt].
        split; [rewrite app_assoc; reflexivity|]. split.
        { apply deeper_app; auto. intros e g x [I|[]]. discriminate. }
        split.
        { intros U. apply untouched_app in U. destruct U as [U _]. rewrite called_app, (C U). cbn. apply app_nil_r. }
        left. split; auto. split; [exists (Acts q :: fr); reflexivity|].
        intros U. apply untouched_app in U. destruct U as [U V]. unfold subscribe. rewrite handlers_put.
        destruct (t =? ty m) eqn:E; [|auto]. apply Nat.eqb_eq in E; subst. destruct (V h) as [V' _]. elim V'. left; reflexivity.
      * destruct (unsubscribe r t h) as [r' [|]] eqn:E.
        -- exists (l ++ [Unsubd t h]), i. cbn [log stack failed rt].
           split; [rewrite app_assoc; reflexivity|]. split.
           { apply deeper_app; auto. intros e g x [I|[]]. discriminate. }
           split.
           { intros U. apply untouched_app in U. destruct U as [U _]. rewrite called_app, (C U). cbn. apply app_nil_r. }
           left. split; auto. split; [exists (Acts q :: fr); reflexivity|].
           intros U. apply untouched_app in U. destruct U as [U V].
           destruct (Nat.eq_dec t (ty m)) as [->|N]; [destruct (V h) as [_ V']; elim V'; left; reflexivity|].
           apply C103_unsubscribe in E. destruct E as [_ E]. rewrite E; auto.
        -- exists l, i. cbn [log stack failed rt]. repeat split; auto.
      * exists l, i. cbn [log stack failed rt]. repeat split; auto.
  - destruct K as [->|K]; [|rewrite St in K; lia].
    exists l, i. unfold Bus_Model.step. rewrite St. repeat split; auto.
  - exists l, i. unfold Bus_Model.step. rewrite St. repeat split; auto.
Qed.
Lemma inv_start s m k : stack s = Route m 0 :: k -> failed s = false -> Inv (rt s) (log s) m k s.
Proof.
  intros St F. exists [], 0. rewrite app_nil_r. split; auto. split; [intros ? ? ? []|]. split; [reflexivity|].
  left. split; auto. split; [exists []; auto|auto].
Qed.
Lemma inv_run s m k : stack s = Route m 0 :: k -> failed s = false ->
  forall n, (k = [] \/ forall j, j < n -> length k < length (stack (run j s))) -> Inv (rt s) (log s) m k (run n s).
Proof.
  intros St F. induction n as [|n IH]; intros K; [apply inv_start; auto|].
  rewrite run_S. apply inv_step.
  - apply IH. destruct K as [K|K]; auto.
  - destruct K as [K|K]; auto.
Qed.

(** From the moment a message is sent, at whatever depth, to the moment its sending ends: nothing is called for a message
    sent further out; and if nobody subscribed to its type or unsubscribed meanwhile, exactly the handlers subscribed to
    its type are called with it, once for each subscription, in the order of the subscriptions *)
Theorem C103_delivery_partial : forall s m k n, stack s = Route m 0 :: k -> failed s = false ->
  (forall j, j < n -> length k < length (stack (run j s))) -> stack (run n s) = k -> failed (run n s) = false ->
  exists l, log (run n s) = log s ++ l /\ deeper (routes k) l /\
    (untouched (ty m) l -> called (routes k) l = map (fun h => (h, m)) (handlers (rt s) (ty m))).
Proof.
  intros s m k n St F K E F'. destruct (inv_run s m k St F n (or_intror K)) as (l & i & L & D & C & [ (_ & (fr & X) & _) | [ (_ & _ & H) | (G & _) ] ]).
  - rewrite E in X. apply (f_equal (@length _)) in X. rewrite app_length in X. cbn in X. lia.
  - exists l. repeat split; auto. intros U. rewrite (C U), firstn_all2; auto.
  - congruence.
Qed.
(** the same for a message sent on an idle bus *)
Theorem C103_sent_partial : forall r past m n, stack (run n (send r past m)) = [] -> failed (run n (send r past m)) = false ->
  exists l, log (run n (send r past m)) = past ++ l /\
    (untouched (ty m) l -> called 0 l = map (fun h => (h, m)) (handlers r (ty m))).
Proof.
  intros r past m n E F'. destruct (inv_run (send r past m) m [] eq_refl eq_refl n (or_introl eq_refl)) as (l & i & L & D & C & [ (_ & (fr & X) & _) | [ (_ & _ & H) | (G & _) ] ]).
  - rewrite E in X. destruct fr; discriminate.
  - exists l. split; auto. intros U. change 0 with (routes []). rewrite (C U). cbn [rt send]. rewrite firstn_all2; auto.
  - congruence.
Qed.
(** at any time, and also when a handler raises: the first so many of them were called *)
Theorem C103_prefix : forall r past m n, exists l i, log (run n (send r past m)) = past ++ l /\
    (untouched (ty m) l -> called 0 l = map (fun h => (h, m)) (firstn i (handlers r (ty m)))).
Proof.
  intros r past m n. destruct (inv_run (send r past m) m [] eq_refl eq_refl n (or_introl eq_refl)) as (l & i & L & D & C & _).
  exists l, i. split; auto.
Qed.

(** a handler that raises keeps the message from all who subscribed after it *)
Theorem C103_raise_refuted : forall r past m h hs, handlers r (ty m) = h :: hs -> beh past h m = [Raise] ->
  exists n, stack (run n (send r past m)) = [] /\ failed (run n (send r past m)) = true /\
    log (run n (send r past m)) = past ++ [Call 0 h m].
Proof.
  intros r past m h hs H B. exists 2.
  assert (E : run 2 (send r past m) = Bus (touch r (ty m)) [] (past ++ [Call 0 h m]) true).
  { cbn [Bus_Model.run]. unfold send, Bus_Model.step at 2. cbn [stack rt log failed]. rewrite H. cbn [nth_error]. rewrite B. reflexivity. }
  rewrite E. repeat split.
Qed.

Lemma quiet m hs : forall pre r lg, handlers r (ty m) = pre ++ hs -> (forall lg h, In h hs -> beh lg h m = []) ->
  exists n r', run n (Bus r [Route m (length pre)] lg false) = Bus r' [] (lg ++ map (fun h => Call 0 h m) hs) false.
Proof.
  induction hs as [|h hs IH]; intros pre r lg H Q.
  - exists 1. eexists. cbn [Bus_Model.run]. unfold Bus_Model.step. cbn [stack rt log failed].
    rewrite H, app_nil_r. rewrite (proj2 (nth_error_None pre (length pre)) (le_n _)). cbn [map]. rewrite app_nil_r. reflexivity.
  - assert (H' : handlers (touch r (ty m)) (ty m) = (pre ++ [h]) ++ hs) by (rewrite handlers_touch, H, <- app_assoc; reflexivity).
    destruct (IH (pre ++ [h]) (touch r (ty m)) (lg ++ [Call 0 h m]) H') as (n & r' & E); [intros; apply Q; right; auto|].
    exists (2 + n), r'. rewrite run_add. cbn [Bus_Model.run]. unfold Bus_Model.step at 2. cbn [stack rt log failed].
    rewrite H, nth_error_app2, Nat.sub_diag; auto. cbn [nth_error]. rewrite Q; [|left; auto]. unfold Bus_Model.step. cbn [stack rt log failed].
    rewrite app_length in E. cbn [length] in E. rewrite Nat.add_1_r in E. unfold routes. cbn [filter length]. rewrite E. cbn [map].
    rewrite <- app_assoc. reflexivity.
Qed.
(** a handler that unsubscribes itself while it is called keeps the message from the one subscribed next, and from nobody else *)
Theorem C103_self_unsubscribe_refuted : forall r past m h1 h2 hs, handlers r (ty m) = h1 :: h2 :: hs ->
  beh past h1 m = [Unsub (ty m) h1] -> (forall lg h, In h hs -> beh lg h m = []) ->
  exists n, stack (run n (send r past m)) = [] /\ failed (run n (send r past m)) = false /\
    called 0 (skipn (length past) (log (run n (send r past m)))) = (h1, m) :: map (fun h => (h, m)) hs.
Proof.
  intros r past m h1 h2 hs H B Q.
  set (r1 := put (touch r (ty m)) (ty m) (h2 :: hs)).
  assert (E3 : run 3 (send r past m) = Bus r1 [Route m 1] ((past ++ [Call 0 h1 m]) ++ [Unsubd (ty m) h1]) false).
  { cbn [Bus_Model.run]. unfold send, Bus_Model.step at 3. cbn [stack rt log failed]. rewrite H. cbn [nth_error]. rewrite B.
    unfold Bus_Model.step at 2. cbn [stack rt log failed]. unfold unsubscribe. rewrite handlers_touch, H. cbn [remove_first].
    rewrite Nat.eqb_refl. unfold Bus_Model.step. cbn [stack rt log failed]. reflexivity. }
  destruct (quiet m hs [h2] r1 ((past ++ [Call 0 h1 m]) ++ [Unsubd (ty m) h1])) as (n & r' & E); auto.
  { unfold r1. rewrite handlers_put, Nat.eqb_refl. reflexivity. }
  exists (3 + n). rewrite run_add, E3. cbn [length] in E. rewrite E. cbn [stack failed log]. repeat split.
  rewrite <- !app_assoc, skipn_app, skipn_all, Nat.sub_diag. cbn [skipn app called Nat.eqb]. f_equal.
  clear. induction hs as [|h hs IH]; cbn; congruence.
Qed.
End Handlers.

(** handler 1 sends a message of type 2 to handlers 4 and 5 before handler 2 hears the first one; handler 4 subscribes to
    type 3 *)
Definition ex_beh (lg : list event) (h : nat) (m : msg) : list act :=
  match h with 1 => [Send (Msg 2 9)] | 4 => [Sub 3 4] | _ => [] end.
Definition ex_router : router := [(1, [1; 2; 1]); (2, [4; 5])].
Example C103_sent_ex :
  let s := run ex_beh 40 (send ex_router [] (Msg 1 7)) in
  stack s = [] /\ failed s = false /\ called 0 (log s) = [(1, Msg 1 7); (2, Msg 1 7); (1, Msg 1 7)] /\
  log s = [Call 0 1 (Msg 1 7); Call 1 4 (Msg 2 9); Subd 3 4; Call 1 5 (Msg 2 9); Call 0 2 (Msg 1 7);
           Call 0 1 (Msg 1 7); Call 1 4 (Msg 2 9); Subd 3 4; Call 1 5 (Msg 2 9)] /\
  handlers (rt s) 3 = [4; 4] /\ untouched 1 (log s).
Proof. vm_compute. repeat split; intros I; repeat (destruct I as [I|I]; [discriminate|]); exact I. Qed.
(** the hypotheses of the delivery of the inner message are met: it is sent in the second step *)
Example C103_delivery_ex :
  let s := run ex_beh 2 (send ex_router [] (Msg 1 7)) in
  stack s = Route (Msg 2 9) 0 :: [Acts []; Route (Msg 1 7) 1] /\ failed s = false /\
  stack (run ex_beh 6 s) = [Acts []; Route (Msg 1 7) 1] /\
  forallb (fun j => 2 <? length (stack (run ex_beh j s))) (seq 0 6) = true.
Proof. vm_compute. repeat split. Qed.
Example C103_raise_ex : forall (b := fun (_ : list event) (h : nat) (_ : msg) => if h =? 1 then [Raise] else []),
  called 0 (log (run b 9 (send ex_router [] (Msg 1 7)))) = [(1, Msg 1 7)].
Proof. reflexivity. Qed.
Example C103_self_unsubscribe_ex : forall (b := fun (_ : list event) (h : nat) (_ : msg) => if h =? 3 then [Unsub 1 3] else []),
  let s := run b 20 (send [(1, [3; 2; 4])] [] (Msg 1 7)) in stack s = [] /\ called 0 (log s) = [(3, Msg 1 7); (4, Msg 1 7)].
Proof. split; reflexivity. Qed.

(** *** types *)
Inductive rop := RSub (t h : nat) | RUnsub (t h : nat) | RRead (t : nat).
Definition rstep (r : router) (o : rop) : router :=
  match o with RSub t h => subscribe r t h | RUnsub t h => fst (unsubscribe r t h) | RRead t => touch r t end.
Lemma keys_put r t l : forall u, In u (map fst (put r t l)) <-> u = t \/ In u (map fst r).
Proof.
  induction r as [|[v k] q IH]; intros u; cbn; [intuition congruence|].
  destruct (v =? t) eqn:E; cbn; [apply Nat.eqb_eq in E; subst; intuition congruence|]. rewrite IH. tauto.
Qed.
Lemma nodup_put r t l : NoDup (map fst r) -> NoDup (map fst (put r t l)).
Proof.
  induction r as [|[v k] q IH]; intros N; cbn; [repeat constructor; intros []|].
  inversion N as [|? ? A B]; subst. destruct (v =? t) eqn:E; cbn; constructor; auto.
  intros I. apply keys_put in I. destruct I as [I|I]; auto. apply Nat.eqb_neq in E. auto.
Qed.
Lemma nodup_ops os : forall r, NoDup (map fst r) -> NoDup (map fst (fold_left rstep os r)).
Proof.
  induction os as [|o os IH]; intros r N; [exact N|]. cbn. apply IH.
  destruct o as [t h|t h|t]; cbn; [| |apply nodup_put; exact N].
  - apply nodup_put; exact N.
  - unfold unsubscribe. destruct (remove_first h (handlers r t)); apply nodup_put; exact N.
Qed.
Lemma handlers_notin r t : ~ In t (map fst r) -> handlers r t = [].
Proof.
  induction r as [|[v k] q IH]; intros N; cbn; [reflexivity|].
  destruct (v =? t) eqn:E; [apply Nat.eqb_eq in E; subst; elim N; left; reflexivity|]. apply IH. intros I. apply N. right. exact I.
Qed.
(** the types a router names are those somebody is subscribed to, each once *)
Theorem C103_types : forall os, let r := fold_left rstep os [] in
  NoDup (message_types r) /\ forall t, In t (message_types r) <-> handlers r t <> [].
Proof.
  intros os r. assert (N : NoDup (map fst r)) by (apply nodup_ops; constructor). clearbody r. clear os.
  induction r as [|[v k] q IH]; cbn; [split; [constructor|intros t; split; [intros []|intros X; elim X; reflexivity]]|].
  inversion N as [|? ? A B]; subst. destruct (IH B) as [N' I]. unfold message_types in *. cbn.
  destruct k as [|h k]; cbn.
  - split; auto. intros t. rewrite I. destruct (v =? t) eqn:E; [|tauto].
    apply Nat.eqb_eq in E; subst. rewrite (handlers_notin _ _ A). tauto.
  - split.
    + constructor; auto. intros X. apply I in X. apply X. apply handlers_notin. exact A.
    + intros t. destruct (v =? t) eqn:E.
      * apply Nat.eqb_eq in E; subst. split; [discriminate|left; reflexivity].
      * apply Nat.eqb_neq in E. rewrite <- I. split; [intros [X|X]; [congruence|exact X]|right; exact H].
Qed.
Example C103_types_ex : message_types (fold_left rstep [RSub 1 5; RSub 2 6; RRead 3; RUnsub 1 5; RSub 4 5] []) = [2; 4].
Proof. reflexivity. Qed.

(** *** Subscription *)
Lemma upd_same rs i r : upd rs i r i = r.
Proof. unfold upd. rewrite Nat.eqb_refl. reflexivity. Qed.
Lemma held_cons i t h q j u g : held ((i, t, h) :: q) j u g = held q j u g + b2n ((i =? j) && ((t =? u) && (h =? g))).
Proof.
  unfold held. cbn [count_occ]. destruct (sid_dec (i, t, h) (j, u, g)) as [[= -> -> ->]|N].
  - rewrite !Nat.eqb_refl. cbn. lia.
  - destruct (i =? j) eqn:A, (t =? u) eqn:B, (h =? g) eqn:C; cbn; try lia.
    apply Nat.eqb_eq in A, B, C. subst. congruence.
Qed.
Lemma undo_true sids : forall rs rs', undo rs sids = (rs', true) ->
  forall i t h, times (rs' i) t h + held sids i t h = times (rs i) t h.
Proof.
  induction sids as [|[[i t] h] q IH]; intros rs rs' E j u g; cbn [undo] in E.
  - injection E as <-. cbn. lia.
  - destruct (unsubscribe (rs i) t h) as [r [|]] eqn:F; [|discriminate].
    specialize (IH _ _ E j u g). rewrite held_cons. unfold upd in IH. destruct (i =? j) eqn:A; cbn [andb].
    + apply Nat.eqb_eq in A; subst. pose proof (times_unsubscribe _ _ _ _ F u g). lia.
    + cbn. lia.
Qed.
Lemma undo_enough sids : forall rs, (forall i t h, held sids i t h <= times (rs i) t h) -> snd (undo rs sids) = true.
Proof.
  induction sids as [|[[i t] h] q IH]; intros rs H; cbn [undo]; [reflexivity|].
  destruct (unsubscribe (rs i) t h) as [r [|]] eqn:F.
  - apply IH. intros j u g. specialize (H j u g). rewrite held_cons in H. unfold upd. destruct (i =? j) eqn:A; cbn [andb] in H.
    + apply Nat.eqb_eq in A; subst. pose proof (times_unsubscribe _ _ _ _ F u g). lia.
    + cbn in H. lia.
  - apply unsubscribe_false in F. specialize (H i t h). rewrite held_cons, !Nat.eqb_refl in H. cbn in H. lia.
Qed.

(** If what the object subscribed is still subscribed, cleaning up ends without exception, takes away exactly that and
    leaves the object empty, so that cleaning up again does nothing *)
Theorem C103_cleanup_partial : forall rs sids, (forall i t h, held sids i t h <= times (rs i) t h) ->
  exists rs', unsubscribe_all rs sids = (rs', [], true) /\
    (forall i t h, times (rs' i) t h + held sids i t h = times (rs i) t h) /\
    unsubscribe_all rs' [] = (rs', [], true).
Proof.
  intros rs sids H. pose proof (undo_enough _ _ H) as E. unfold unsubscribe_all.
  destruct (undo rs sids) as [rs' ok] eqn:U. cbn in E. subst ok. exists rs'. repeat split. apply undo_true. exact U.
Qed.
(** handlers that only this object subscribed are then subscribed nowhere *)
Corollary C103_cleanup_own_partial : forall rs sids, (forall i t h, held sids i t h <= times (rs i) t h) ->
  forall i t h, times (rs i) t h = held sids i t h -> ~ In h (handlers (fst (fst (unsubscribe_all rs sids)) i) t).
Proof.
  intros rs sids H i t h O. destruct (C103_cleanup_partial _ _ H) as (rs' & -> & E & _). cbn [fst]. specialize (E i t h).
  assert (Z : times (rs' i) t h = 0) by lia. apply (count_occ_not_In Nat.eq_dec). exact Z.
Qed.
(** the premise holds when the object subscribes: subscribing adds one on both sides *)
Theorem C103_subscribe_both : forall rs sids i t h j u g,
  let (rs', sids') := sub_subscribe rs sids i t h in
  times (rs' j) u g = times (rs j) u g + b2n ((i =? j) && ((t =? u) && (h =? g))) /\
  held sids' j u g = held sids j u g + b2n ((i =? j) && ((t =? u) && (h =? g))).
Proof.
  intros. unfold sub_subscribe. split.
  - unfold upd. destruct (i =? j) eqn:A; cbn [andb]; [|cbn; lia]. apply Nat.eqb_eq in A; subst. apply times_subscribe.
  - pose proof (held_cons i t h [] j u g) as C. unfold held in *. rewrite count_occ_app, C. cbn. lia.
Qed.
(** If the first subscription of the object was already undone from outside, cleaning up raises and undoes nothing, and so
    it does however often it is tried again *)
Theorem C103_cleanup_refuted : forall rs i t h q, times (rs i) t h = 0 ->
  let '(rs', sids', ok) := unsubscribe_all rs ((i, t, h) :: q) in
  ok = false /\ sids' = (i, t, h) :: q /\ (forall j u, handlers (rs' j) u = handlers (rs j) u) /\ times (rs' i) t h = 0.
Proof.
  intros rs i t h q T. unfold unsubscribe_all. cbn [undo].
  destruct (unsubscribe (rs i) t h) as [r [|]] eqn:F.
  - pose proof (times_unsubscribe _ _ _ _ F t h) as X. rewrite !Nat.eqb_refl in X. cbn in X. lia.
  - apply unsubscribe_false in F. destruct F as [_ F]. repeat split.
    + intros j u. unfold upd. destruct (i =? j) eqn:A; auto. apply Nat.eqb_eq in A; subst. apply F.
    + unfold times. rewrite upd_same, F. exact T.
Qed.
Definition ex_routers : routers := fun i => match i with 0 => [(1, [5; 8; 5; 6])] | 1 => [(2, [6])] | _ => [] end.
Example C103_cleanup_ex :
  let sids := [(0, 1, 5); (1, 2, 6); (0, 1, 6)] in
  forallb (fun '(i, t, h) => held sids i t h <=? times (ex_routers i) t h) sids = true /\
  let '(rs', sids', ok) := unsubscribe_all ex_routers sids in
  ok = true /\ sids' = [] /\ handlers (rs' 0) 1 = [8; 5] /\ handlers (rs' 1) 2 = [].
Proof. vm_compute. repeat split. Qed.
Example C103_cleanup_refuted_ex :
  times (ex_routers 0) 1 7 = 0 /\
  let '(rs', sids', ok) := unsubscribe_all ex_routers [(0, 1, 7); (1, 2, 6)] in
  ok = false /\ sids' = [(0, 1, 7); (1, 2, 6)] /\ handlers (rs' 1) 2 = [6].
Proof. vm_compute. repeat split. Qed.

Print Assumptions C103_account.
Print Assumptions C103_delivery_partial.
Print Assumptions C103_self_unsubscribe_refuted.
Print Assumptions C103_types.
Print Assumptions C103_cleanup_partial.
Print Assumptions C103_cleanup_refuted.
