(** C87: what a node makes of its connections. *)
From Coq Require Import List Arith Bool Lia.
From Verif Require Import Dict Links_Model Links_Spec Links_Proofs.
Import ListNotations.

(** ** Status.  In a pool of at least four whose size does not change, a node that is going has at every moment the status
    that goes with the number of nodes it is connected to: [Started] when that is all of them, [StartedHungry] when it is
    at least 2f+1, itself included, [Starting] when fewer.
    Missing for the full claim: pools whose size changes and pools of fewer than four (both refuted below). *)
Theorem C87_status_partial : forall self l os, 4 <= length l -> pool_size_kept (length l) os -> sets os ->
  let n := run (init self l) os in going (stat n) = true -> stat n = status_of (S (length (conns n))) (length l).
Proof.
  intros self l os K P S0 n G. destruct (run_right (length l) os (init self l) K P S0) as ((_ & _ & A & _) & _).
  - apply NoDup_nil.
  - apply init_right; auto.
  - apply A, G.
Qed.
Definition pool4 := [0; 1; 2; 3].
Definition history := [Start; AddReplica 0; Conns [1]; Conns [1; 2; 3]; Conns [3; 2]; AddReplica 1; Conns [2; 3]; Pool pool4].
Example C87_status_example :
  4 <= length pool4 /\ pool_size_kept 4 history /\ sets history /\
  stat (run (init 0 pool4) history) = StartedHungry /\ stat (run (init 0 pool4) (firstn 4 history)) = Started /\
  stat (run (init 0 pool4) (firstn 3 history)) = Starting /\
  told (run (init 0 pool4) history) = [(Stopped, Starting); (Starting, Started); (Started, StartedHungry)].
Proof.
  split; [simpl; lia|]. split; [intros l H; simpl in H; repeat destruct H as [H|H]; try discriminate; [injection H as <-; reflexivity|destruct H]|].
  split; [intros c H; simpl in H; repeat destruct H as [H|H]; try discriminate; try (injection H as <-; repeat constructor; simpl; intuition lia); destruct H|].
  repeat split.
Qed.

(** a change of connections always brings the right status, whatever came before *)
Theorem C87_change : forall self l os c, let n := run (init self l) os in
  going (stat n) = true -> ~ same_set c (conns n) ->
  let n' := step n (Conns c) in conns n' = c /\ stat n' = status_of (S (length c)) (length (pool n)).
Proof.
  intros self l os c n G D. cbn [step]. rewrite G. destruct (after_conns n c) as (E1 & _ & _ & _ & _ & E6). cbn zeta in *.
  split; [exact E1|]. rewrite E6, G, andb_true_r. destruct (changed n c) eqn:C; [|apply changed_false in C; contradiction].
  rewrite status_for_of; [reflexivity|]. apply (run_params os (init self l)), init_params.
Qed.
Example C87_change_example : let n := run (init 0 pool4) history in
  going (stat n) = true /\ ~ same_set [1; 3; 2] (conns n) /\ stat (step n (Conns [1; 3; 2])) = Started.
Proof. cbn zeta. split; [reflexivity|]. split; [|reflexivity]. intros H. destruct (H 1) as (H1 & _). vm_compute in H1. destruct H1 as [H1|[H1|[]]]; auto; discriminate. Qed.

(** the instances are told of every change of status, and of nothing else: what they are told leads from [Stopped] to the
    status the node has *)
Theorem C87_told : forall self l os, let n := run (init self l) os in chain Stopped (told n) (stat n).
Proof. intros self l os. apply run_told. reflexivity. Qed.
Example C87_told_example : told (run (init 0 pool4) (history ++ [Stop])) =
  [(Stopped, Starting); (Starting, Started); (Started, StartedHungry); (StartedHungry, Stopping); (Stopping, Stopped)].
Proof. reflexivity. Qed.

(** Refuted: a change of the pool does not change the status.  Here the pool has grown from four to seven; the node still
    takes itself for fully connected, with four of the seven, fewer than 2f+1. *)
Theorem C87_pool_refuted : exists self l os, let n := run (init self l) os in
  length (pool n) = 7 /\ S (length (conns n)) = 4 /\ stat n = Started /\ status_of 4 7 = Starting.
Proof. exists 0, pool4, [Start; Conns [1; 2; 3]; Pool [0; 1; 2; 3; 4; 5; 6]]. repeat split. Qed.

(** Refuted: a node that is connected to nobody never gets beyond [Starting], even if it is all of its pool. *)
Theorem C87_alone_refuted : forall self os, (forall c, In (Conns c) os -> c = []) ->
  let n := run (init self [self]) os in ready (stat n) = false.
Proof. intros self os H n. destruct (alone_run os (init self [self]) eq_refl (or_introl eq_refl) H) as (_ & [E|E]); unfold n; rewrite E; reflexivity. Qed.
Example C87_alone_example : stat (run (init 0 [0]) [Start; Conns []; Pool [0]; Conns []]) = Starting /\ status_of 1 1 = Started.
Proof. split; reflexivity. Qed.

(** ** Being ready.  In a pool of 3f+1, f at least 1, that does not change its size, a node is ready exactly while a strong
    quorum is connected (itself included).  Missing: pools of other sizes (refuted). *)
Theorem C87_ready_partial : forall self l os f, length l = 3 * f + 1 -> 1 <= f -> pool_size_kept (length l) os -> sets os ->
  let n := run (init self l) os in going (stat n) = true ->
  (ready (stat n) = true <-> length l - f <= S (length (conns n))).
Proof.
  intros self l os f L F P S0 n G. pose proof (C87_status_partial self l os ltac:(lia) P S0 G) as E. fold n in E. rewrite E.
  assert (Q : (length l - 1) / 3 = f) by (rewrite L; replace (3 * f + 1 - 1) with (f * 3) by lia; apply Nat.div_mul; lia).
  unfold status_of. cbn zeta. rewrite Q. destruct (Nat.eqb_spec (S (length (conns n))) (length l)) as [E1|N1]; cbn [ready].
  - split; intros _; [lia|reflexivity].
  - destruct (Nat.leb_spec (2 * f + 1) (S (length (conns n)))); cbn [ready]; split; intros; try discriminate; try reflexivity; lia.
Qed.
Example C87_ready_example : ready (stat (run (init 0 pool4) history)) = true /\ S (length (conns (run (init 0 pool4) history))) = 3 /\ length pool4 = 3 * 1 + 1.
Proof. repeat split. Qed.
(** Refuted: in a pool of five a node is ready with three nodes connected, itself included, though four have to agree on
    anything. *)
Theorem C87_ready_refuted : exists self l os, let n := run (init self l) os in
  pool_size_kept (length l) os /\ length l = 5 /\ ready (stat n) = true /\ S (length (conns n)) = 3 /\ strong 5 = 4.
Proof.
  exists 0, [0; 1; 2; 3; 4], [Start; Conns [1; 2]]. cbn zeta. split; [|repeat split].
  intros l H. simpl in H. repeat destruct H as [H|H]; try discriminate. destruct H.
Qed.

(** ** [Started] means all: if the connections are to nodes of the pool other than itself, a started node is connected to
    every other node of the pool. *)
Theorem C87_all_partial : forall self l os, 4 <= length l -> NoDup l -> pool_size_kept (length l) os -> sets os ->
  let n := run (init self l) os in stat n = Started ->
  In self l -> (forall x, In x (conns n) -> In x l /\ x <> self) -> forall x, In x l -> x = self \/ In x (conns n).
Proof.
  intros self l os K N P S0 n E IS IN x I.
  destruct (run_right (length l) os (init self l) K P S0 ltac:(apply NoDup_nil) (init_right self l _ K eq_refl)) as ((_ & _ & A & _) & NC).
  fold n in A, NC. rewrite E in A. specialize (A eq_refl).
  assert (Q : S (length (conns n)) = length l).
  { unfold status_of in A. cbn zeta in A. destruct (Nat.eqb_spec (S (length (conns n))) (length l)); [assumption|].
    destruct (2 * ((length l - 1) / 3) + 1 <=? S (length (conns n))); discriminate. }
  assert (NS : NoDup (self :: conns n)) by (apply NoDup_cons; [intros J; apply IN in J; tauto|exact NC]).
  assert (H : incl l (self :: conns n)).
  { apply NoDup_length_incl; [exact NS|cbn [length]; lia|]. intros y [<-|J]; [exact IS|apply IN, J]. }
  destruct (H x I) as [->|J]; auto.
Qed.
Example C87_all_example : stat (run (init 0 pool4) (firstn 4 history)) = Started /\ conns (run (init 0 pool4) (firstn 4 history)) = [1; 2; 3].
Proof. split; reflexivity. Qed.
(** Refuted: connections to nodes outside the pool count too *)
Theorem C87_outsider_refuted : exists self l os, let n := run (init self l) os in
  stat n = Started /\ In 3 l /\ self <> 3 /\ ~ In 3 (conns n).
Proof. exists 0, pool4, [Start; Conns [1; 2; 9]]. cbn. repeat split; auto; try lia. Qed.

(** ** What the instances are told.  For every instance and every other node the events come in turn, the first of them
    [Connected]; and what they say is what the instance has in its set. *)
Theorem C87_events : forall self l os i b x, sets os -> get i (reps (run (init self l) os)) = Some b ->
  alternate x false (heard b) /\ believed x (heard b) = mem x (known b).
Proof. intros self l os i b x S0 G. apply get_in in G. apply (run_buses os (init self l) S0) in G; [apply G|intros r []]. Qed.
Example C87_events_example : option_map heard (get 0 (reps (run (init 0 pool4) history))) =
  Some [Connected 1; Connected 2; Connected 3; Disconnected 1].
Proof. reflexivity. Qed.

(** An instance made while nothing was connected knows at every later moment who is connected.
    Missing: instances made later (refuted), and a node stopped and started again (its instances keep their sets). *)
Theorem C87_known_partial : forall self l os1 os2 i, conns (run (init self l) os1) = [] ->
  ~ In Stop os2 -> ~ In (RemoveReplica i) os2 -> ~ In (AddReplica i) os2 ->
  let n := run (init self l) (os1 ++ AddReplica i :: os2) in
  exists b, get i (reps n) = Some b /\ same_set (known b) (conns n).
Proof.
  intros self l os1 os2 i E A B C n. unfold n. rewrite run_app. change (run ?s (AddReplica i :: os2)) with (run (step s (AddReplica i)) os2).
  apply run_knows; auto. exists new_bus. cbn [step reps conns]. rewrite get_set, Nat.eqb_refl, E. split; [reflexivity|]. intros x. tauto.
Qed.
Example C87_known_example : conns (run (init 0 pool4) [Start]) = [] /\
  option_map known (get 0 (reps (run (init 0 pool4) ([Start] ++ AddReplica 0 :: skipn 2 history)))) = Some [3; 2] /\
  conns (run (init 0 pool4) history) = [2; 3].
Proof. repeat split. Qed.

(** After a change of connections every instance knows who is connected *)
Theorem C87_known_after_change : forall self l os c i b, let n := run (init self l) os in
  going (stat n) = true -> ~ same_set c (conns n) -> get i (reps (step n (Conns c))) = Some b -> known b = c.
Proof.
  intros self l os c i b n G D. cbn [step]. rewrite G. destruct (after_conns n c) as (_ & _ & _ & _ & E & _). cbn zeta in E. rewrite E.
  destruct (changed n c) eqn:C; [|apply changed_false in C; contradiction]. rewrite (get_map (fun b => update_connecteds b c)).
  destruct (get i (reps n)); [|discriminate]. simpl. intros Q. injection Q as <-. reflexivity.
Qed.
Example C87_known_after_change_example : let n := run (init 0 pool4) history in
  option_map known (get 1 (reps (step n (Conns [1; 3; 2])))) = Some [1; 3; 2].
Proof. reflexivity. Qed.

(** Refuted: an instance made while nodes are connected (a backup restored after a view change, or added as the pool grows)
    knows of no connection, however long the connections stay as they are; it asks nobody for the messages it lacks. *)
Theorem C87_new_refuted : forall self l os i k, let n := run (init self l) os in
  let n' := run n (AddReplica i :: repeat (Conns (conns n)) k) in
  conns n' = conns n /\ get i (reps n') = Some new_bus.
Proof.
  intros self l os i k n n'. unfold n'. change (run n (AddReplica i :: ?r)) with (run (step n (AddReplica i)) r).
  assert (X : forall m, conns m = conns n -> get i (reps m) = Some new_bus ->
    conns (run m (repeat (Conns (conns n)) k)) = conns n /\ get i (reps (run m (repeat (Conns (conns n)) k))) = Some new_bus).
  { induction k as [|k IH]; intros m E G; [split; assumption|]. cbn [repeat].
    change (run m (?o :: ?r)) with (run (step m o) r). cbn [step]. destruct (going (stat m)); [|apply IH; assumption].
    destruct (after_conns m (conns n)) as (E1 & _ & _ & _ & E5 & _). cbn zeta in *. apply IH; [exact E1|]. rewrite E5.
    replace (changed m (conns n)) with false; [exact G|]. symmetry. apply changed_false. rewrite E. intros x. tauto. }
  apply X; [reflexivity|]. cbn [step reps]. rewrite get_set, Nat.eqb_refl. reflexivity.
Qed.
Example C87_new_example : let n := run (init 0 pool4) history in
  conns n = [2; 3] /\ option_map known (get 1 (reps (run n [RemoveReplica 1; AddReplica 1]))) = Some [].
Proof. split; reflexivity. Qed.

(** ** The watch for a lost network.  The watcher knows who is connected: those whose last call was [WConnect]. *)
Theorem C87_counted : forall os, NoDup (w_conn (wrun new_watcher os)) /\ forall x, In x (w_conn (wrun new_watcher os)) <-> linked x os = true.
Proof. intros os. split; [apply wconn_nodup|apply wconn_in]. Qed.
Definition calls := [WNodes pool4; WConnect 0; WConnect 1; WConnect 2; WDisconnect 1; WConnect 3; WDisconnect 2; WDisconnect 3].
Example C87_counted_example : w_conn (wrun new_watcher calls) = [0] /\ linked 3 calls = false /\ w_calls (wrun new_watcher calls) = 1.
Proof. repeat split. Qed.
(** It warns only when a node is lost and fewer than f+1 remain, after n-f had been connected since its last warning *)
Theorem C87_warned_only : forall os o, w_calls (wrun new_watcher (os ++ [o])) <> w_calls (wrun new_watcher os) ->
  (exists x, o = WDisconnect x) /\
  w_calls (wrun new_watcher (os ++ [o])) = S (w_calls (wrun new_watcher os)) /\
  length (w_conn (wrun new_watcher (os ++ [o]))) < (length (w_nodes (wrun new_watcher os)) - 1) / 3 + 1 /\
  exists os1 y os2, os = os1 ++ WConnect y :: os2 /\
    (let k := length (w_nodes (wrun new_watcher os1)) in k - (k - 1) / 3 <= length (w_conn (wrun new_watcher (os1 ++ [WConnect y])))) /\
    w_calls (wrun new_watcher os) = w_calls (wrun new_watcher os1).
Proof.
  intros os o. rewrite wrun_app. cbn [wrun fold_left]. destruct o as [x|x|l]; cbn [wstep w_calls]; [congruence| |congruence].
  destruct (w_reached (wrun new_watcher os) && _) eqn:E; cbn [w_calls w_conn]; [|congruence]. intros _.
  apply andb_true_iff in E as (R & W). apply negb_true_iff, Nat.leb_gt in W.
  split; [eexists; reflexivity|]. split; [reflexivity|]. split; [exact W|]. apply reached_since, R.
Qed.
Example C87_warned_only_example :
  w_calls (wrun new_watcher (firstn 7 calls)) = 0 /\ w_calls (wrun new_watcher (firstn 7 calls ++ [WDisconnect 3])) = 1.
Proof. split; reflexivity. Qed.
(** and as long as the pool stays as it is, it does warn: if at one time n-f were connected and later fewer than f+1 are,
    a warning was given in between.  Missing: changes of the pool (refuted). *)
Theorem C87_warned_partial : forall l os1 os2, l <> [] -> no_pool_change os1 -> no_pool_change os2 ->
  let a := wrun new_watcher (WNodes l :: os1) in let b := wrun new_watcher (WNodes l :: os1 ++ os2) in
  length l - (length l - 1) / 3 <= length (w_conn a) -> length (w_conn b) < (length l - 1) / 3 + 1 -> w_calls a < w_calls b.
Proof.
  intros l os1 os2 L N1 N2 a b HA HB.
  assert (K : length l <> 0) by (destruct l; simpl; congruence).
  assert (GA : wgood (length l) a).
  { unfold a. change (wrun new_watcher (WNodes l :: os1)) with (wrun (wstep new_watcher (WNodes l)) os1). apply wrun_good; auto.
    split; [reflexivity|]. cbn. split; [|discriminate]. unfold strong, max_failures. pose proof (div3 (length l)). lia. }
  assert (EB : b = wrun a os2).
  { unfold a, b. change (WNodes l :: os1 ++ os2) with ((WNodes l :: os1) ++ os2). apply wrun_app. }
  assert (GB : wgood (length l) b) by (rewrite EB; apply wrun_good; auto).
  pose proof (wcalls_mono os2 a) as M. rewrite <- EB in M. destruct (Nat.eq_dec (w_calls b) (w_calls a)) as [E|]; [|lia]. exfalso.
  destruct GA as (_ & A & _), GB as (_ & _ & B). specialize (A HA). rewrite EB in E. apply wcalls_reached in E; [|exact A]. rewrite <- EB in E.
  specialize (B E). unfold weak, max_failures in B. lia.
Qed.
Example C87_warned_example : let l := pool4 in let os1 := firstn 3 (skipn 1 calls) in let os2 := skipn 4 calls in
  l <> [] /\ no_pool_change os1 /\ no_pool_change os2 /\ length (w_conn (wrun new_watcher (WNodes l :: os1))) = 3 /\
  length (w_conn (wrun new_watcher (WNodes l :: os1 ++ os2))) = 1.
Proof.
  cbn zeta. split; [discriminate|]. split; [intros l H; simpl in H; intuition discriminate|]. split; [intros l H; simpl in H; intuition discriminate|].
  split; reflexivity.
Qed.
(** the node's watcher counts the node itself and those it is connected to *)
Theorem C87_watched_partial : forall self l os, ~ In Stop os -> (forall c, In (Conns c) os -> ~ In self c) ->
  let n := run (init self l) os in same_set (w_conn (watch n)) (self :: conns n).
Proof. intros self l os A B n. apply run_watches; auto. intros x. reflexivity. Qed.
Example C87_watched_example : w_conn (watch (run (init 0 pool4) history)) = [0; 2; 3].
Proof. reflexivity. Qed.
(** and reckons with the pool as it is *)
Theorem C87_watched_pool : forall self l os, let n := run (init self l) os in w_nodes (watch n) = pool n /\ total n = length (pool n) /\
  pool n = fold_left (fun p o => match o with Pool l' => l' | _ => p end) os l.
Proof.
  intros self l os.
  assert (W : forall ws w, no_pool_change ws -> w_nodes (wrun w ws) = w_nodes w).
  { induction ws as [|o ws IH]; intros w N; [reflexivity|]. cbn [wrun fold_left]. fold (wrun (wstep w o) ws).
    rewrite IH by (intros l' I; apply (N l'); right; exact I).
    destruct o as [x|x|l']; [reflexivity| |destruct (N l'); left; reflexivity]. cbn [wstep]. destruct (_ && _); reflexivity. }
  assert (K : forall n s, watch (set_status n s) = watch n /\ pool (set_status n s) = pool n /\ total (set_status n s) = total n)
    by (intros n s; unfold set_status; destruct (status_eqb _ _); auto).
  assert (G : forall os n p, w_nodes (watch n) = pool n -> total n = length (pool n) -> pool n = p ->
    w_nodes (watch (run n os)) = pool (run n os) /\ total (run n os) = length (pool (run n os)) /\
    pool (run n os) = fold_left (fun p o => match o with Pool l' => l' | _ => p end) os p).
  { clear os. induction os as [|o os IH]; intros n p A B C; [auto|]. cbn [run fold_left]. fold (run (step n o) os).
    destruct o as [c|l'| | |i|i]; [| apply IH; reflexivity| | |apply IH; assumption|apply IH; assumption].
    - assert (D : w_nodes (watch (step n (Conns c))) = pool n /\ pool (step n (Conns c)) = pool n /\ total (step n (Conns c)) = total n).
      { cbn [step]. destruct (going (stat n)); [|auto]. unfold conns_changed.
        assert (Z : forall j lf m, w_nodes (watch m) = pool m -> w_nodes (wrun (wrun (watch m) (map WDisconnect lf)) (map WConnect j)) = pool m).
        { intros j lf m M. rewrite !W; [exact M| |]; intros l' I; apply in_map_iff in I as (x & X & _); discriminate. }
        set (n1 := Node c (pool n) (total n) (minimum n) (stat n) (told n) (reps n) (watch n)).
        set (n2 := if going (stat n1) then set_status n1 (status_for n1) else n1).
        assert (N2 : watch n2 = watch n /\ pool n2 = pool n /\ total n2 = total n).
        { unfold n2. destruct (going (stat n1)); [|auto]. destruct (K n1 (status_for n1)) as (E1 & E2 & E3). rewrite E1, E2, E3. auto. }
        destruct N2 as (E1 & E2 & E3).
        assert (Y : w_nodes (watch n2) = pool n2) by congruence.
        destruct (minus c (conns n)) as [|x j] eqn:J; [destruct (minus (conns n) c) as [|y lf] eqn:L; [cbn; auto|]|];
          cbn [watch pool total]; (split; [rewrite Z by exact Y; exact E2|]); auto. }
      destruct D as (D1 & D2 & D3). apply IH; congruence.
    - cbn [step]. destruct (going (stat n)); [apply IH; assumption|]. destruct (K n Starting) as (E1 & E2 & E3). apply IH; congruence.
    - cbn [step]. assert (D : forall m, m = set_status (reset (set_status n Stopping)) Stopped -> watch m = watch n /\ pool m = pool n /\ total m = total n).
      { intros m ->. destruct (K (reset (set_status n Stopping)) Stopped) as (E1 & E2 & E3). destruct (K n Stopping) as (F1 & F2 & F3).
        rewrite E1, E2, E3. cbn [reset watch pool total]. auto. }
      destruct (D _ eq_refl) as (D1 & D2 & D3). destruct (stat n); apply IH; congruence. }
  apply G; [|reflexivity|reflexivity]. cbn [init watch]. reflexivity.
Qed.
Example C87_watched_pool_example : w_nodes (watch (run (init 0 pool4) [Start; Conns [1; 2]; Pool [0; 1; 2; 3; 4]; Conns [1]; Stop])) = [0; 1; 2; 3; 4].
Proof. reflexivity. Qed.
(** Refuted: when the pool shrinks so that n-f nodes are connected, losing all of them goes without a warning *)
Theorem C87_shrunk_refuted : exists self l os c, let n := run (init self l) os in let n' := step n (Conns c) in
  strong (length (pool n)) <= length (w_conn (watch n)) /\ length (w_conn (watch n')) < weak (length (pool n')) /\
  w_calls (watch n') = 0.
Proof. exists 0, [0; 1; 2; 3; 4; 5; 6], [Start; Conns [1; 2; 3]; Pool pool4], []. cbn. repeat split; lia. Qed.
(** Refuted: it warns of nodes lost although, before and after the change, at least f+1 are connected: losses are counted
    before gains *)
Theorem C87_swap_refuted : exists self l os c, let n := run (init self l) os in let n' := step n (Conns c) in
  w_calls (watch n) = 0 /\ w_calls (watch n') = 1 /\ weak (length l) <= length (w_conn (watch n')) /\ pool n' = l.
Proof. exists 0, [0; 1; 2; 3; 4; 5; 6], [Start; Conns [1; 2; 3; 4]], [5; 6]. cbn. repeat split; lia. Qed.

Print Assumptions C87_status_partial.
Print Assumptions C87_change.
Print Assumptions C87_told.
Print Assumptions C87_pool_refuted.
Print Assumptions C87_alone_refuted.
Print Assumptions C87_ready_partial.
Print Assumptions C87_ready_refuted.
Print Assumptions C87_all_partial.
Print Assumptions C87_outsider_refuted.
Print Assumptions C87_events.
Print Assumptions C87_known_partial.
Print Assumptions C87_known_after_change.
Print Assumptions C87_new_refuted.
Print Assumptions C87_counted.
Print Assumptions C87_warned_only.
Print Assumptions C87_warned_partial.
Print Assumptions C87_watched_partial.
Print Assumptions C87_watched_pool.
Print Assumptions C87_shrunk_refuted.
Print Assumptions C87_swap_refuted.
