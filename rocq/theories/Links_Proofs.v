(** Proofs about a node's view of its connections (C87). *)
From Coq Require Import List Arith Bool Lia.
From Verif Require Import Dict Links_Model Links_Spec.
Import ListNotations.

Lemma mem_true x l : mem x l = true <-> In x l.
Proof. apply mem_in. Qed.
Lemma mem_false x l : mem x l = false <-> ~ In x l.
Proof. rewrite <- mem_true. destruct (mem x l); split; congruence. Qed.
Lemma minus_in x a b : In x (minus a b) <-> In x a /\ ~ In x b.
Proof. unfold minus. rewrite filter_In, negb_true_iff, mem_false. tauto. Qed.
Lemma minus_nodup a b : NoDup a -> NoDup (minus a b).
Proof. apply NoDup_filter. Qed.
Lemma discard_in x l y : In y (discard x l) <-> In y l /\ x <> y.
Proof. unfold discard. rewrite filter_In, negb_true_iff, Nat.eqb_neq. tauto. Qed.
Lemma minus_nil a b : minus a b = [] <-> incl a b.
Proof.
  split.
  - intros E x I. destruct (mem x b) eqn:M; [apply mem_true; exact M|]. apply mem_false in M.
    assert (K : In x (minus a b)) by (apply minus_in; auto). rewrite E in K. destruct K.
  - intros H. destruct (minus a b) as [|x r] eqn:E; [reflexivity|]. exfalso.
    assert (K : In x (minus a b)) by (rewrite E; left; reflexivity). apply minus_in in K as (K1 & K2). auto.
Qed.

(** *** quorums *)
Lemma div3 n : 3 * ((n - 1) / 3) <= n - 1.
Proof. apply Nat.mul_div_le. lia. Qed.
Lemma weak_strong n : n <> 0 -> weak n <= strong n.
Proof. intros H. unfold weak, strong, max_failures. pose proof (div3 n). lia. Qed.

(** *** status *)
Definition params (n : node) : Prop := total n = length (pool n) /\ minimum n = 2 * max_failures (length (pool n)) + 1.
Lemma params_set_status n s : params n -> params (set_status n s).
Proof. unfold set_status. destruct (status_eqb (stat n) s); auto. Qed.
Lemma status_eqb_eq a b : status_eqb a b = true -> a = b.
Proof. destruct a, b; simpl; congruence. Qed.
Lemma stat_set_status n s : stat (set_status n s) = s.
Proof. unfold set_status. destruct (status_eqb (stat n) s) eqn:E; [apply status_eqb_eq in E; exact E|reflexivity]. Qed.
Lemma conns_set_status n s : conns (set_status n s) = conns n.
Proof. unfold set_status. destruct (status_eqb (stat n) s); reflexivity. Qed.
Lemma pool_set_status n s : pool (set_status n s) = pool n.
Proof. unfold set_status. destruct (status_eqb (stat n) s); reflexivity. Qed.
Lemma reps_set_status n s : reps (set_status n s) = reps n.
Proof. unfold set_status. destruct (status_eqb (stat n) s); reflexivity. Qed.
Lemma watch_set_status n s : watch (set_status n s) = watch n.
Proof. unfold set_status. destruct (status_eqb (stat n) s); reflexivity. Qed.
Lemma total_set_status n s : total (set_status n s) = total n.
Proof. unfold set_status. destruct (status_eqb (stat n) s); reflexivity. Qed.
Lemma minimum_set_status n s : minimum (set_status n s) = minimum n.
Proof. unfold set_status. destruct (status_eqb (stat n) s); reflexivity. Qed.
Lemma status_for_of n : params n -> status_for n = status_of (S (length (conns n))) (length (pool n)).
Proof. intros (T & M). unfold status_for, status_of. rewrite T, M. unfold max_failures. rewrite Nat.add_1_r. reflexivity. Qed.

Definition changed (n : node) (c : list nat) : bool := match minus c (conns n), minus (conns n) c with [], [] => false | _, _ => true end.
Lemma changed_false n c : changed n c = false <-> same_set c (conns n).
Proof.
  unfold changed, same_set. split.
  - destruct (minus c (conns n)) eqn:A; [|discriminate]. destruct (minus (conns n) c) eqn:B; [|discriminate].
    intros _ x. apply minus_nil in A. apply minus_nil in B. split; auto.
  - intros H. rewrite (proj2 (minus_nil c (conns n))), (proj2 (minus_nil (conns n) c)); [reflexivity| |]; intros x I; apply H; exact I.
Qed.
Definition with_conns (n : node) (c : list nat) : node := Node c (pool n) (total n) (minimum n) (stat n) (told n) (reps n) (watch n).
Lemma conns_changed_eq n c :
  conns_changed n c = if changed n c then
      let n1 := with_conns n c in
      let n2 := if going (stat n1) then set_status n1 (status_for n1) else n1 in
      Node (conns n2) (pool n2) (total n2) (minimum n2) (stat n2) (told n2)
           (map (fun r => (fst r, update_connecteds (snd r) c)) (reps n2))
           (wrun (wrun (watch n2) (map WDisconnect (minus (conns n) c))) (map WConnect (minus c (conns n))))
    else with_conns n c.
Proof. unfold conns_changed, changed. destruct (minus c (conns n)), (minus (conns n) c); reflexivity. Qed.

(** after a look at the connections *)
Lemma after_conns n c : let n' := conns_changed n c in
  conns n' = c /\ pool n' = pool n /\ total n' = total n /\ minimum n' = minimum n /\
  reps n' = (if changed n c then map (fun r => (fst r, update_connecteds (snd r) c)) (reps n) else reps n) /\
  stat n' = (if changed n c && going (stat n) then status_for (with_conns n c) else stat n).
Proof.
  cbn zeta. rewrite conns_changed_eq. destruct (changed n c); [|repeat split]. cbn zeta. cbn [stat with_conns].
  destruct (going (stat n)); cbn [conns pool total minimum reps stat andb];
    rewrite ?conns_set_status, ?pool_set_status, ?total_set_status, ?minimum_set_status, ?reps_set_status, ?stat_set_status; repeat split.
Qed.
Lemma step_params n o : params n -> params (step n o).
Proof.
  intros P. destruct o as [c|l| | |i|i]; cbn [step].
  - destruct (going (stat n)); [|exact P]. destruct (after_conns n c) as (_ & E1 & E2 & E3 & _). unfold params. rewrite E1, E2, E3. exact P.
  - split; reflexivity.
  - destruct (going (stat n)); [exact P|]. apply params_set_status. exact P.
  - destruct (stat n) eqn:E; try exact P; apply params_set_status; unfold reset, params; cbn [total pool minimum];
      rewrite ?total_set_status, ?pool_set_status, ?minimum_set_status; exact P.
  - exact P.
  - exact P.
Qed.
Lemma init_params self l : params (init self l).
Proof. split; reflexivity. Qed.
Lemma run_app n a b : run n (a ++ b) = run (run n a) b.
Proof. apply fold_left_app. Qed.
Lemma run_params os : forall n, params n -> params (run n os).
Proof. induction os as [|o os IH]; intros n P; [exact P|]. apply IH, step_params, P. Qed.

(** the invariant for a pool of fixed size, at least four *)
Definition right_status (k : nat) (n : node) : Prop :=
  params n /\ length (pool n) = k /\
  (going (stat n) = true -> stat n = status_of (S (length (conns n))) k) /\
  (going (stat n) = false -> conns n = []).
Lemma status_of_going c n : going (status_of c n) = true.
Proof. unfold status_of. cbn zeta. destruct (c =? n); [reflexivity|]. destruct (2 * ((n - 1) / 3) + 1 <=? c); reflexivity. Qed.
Lemma status_of_alone k : 4 <= k -> status_of 1 k = Starting.
Proof.
  intros K. unfold status_of. cbn zeta. destruct (Nat.eqb_spec 1 k); [lia|].
  assert (D : 1 <= (k - 1) / 3) by (apply Nat.div_le_lower_bound; lia).
  destruct (Nat.leb_spec (2 * ((k - 1) / 3) + 1) 1); [lia|reflexivity].
Qed.
(* two sets with the same members have the same size *)
Lemma same_length a b : NoDup a -> NoDup b -> same_set a b -> length a = length b.
Proof. intros A B H. apply Nat.le_antisymm; apply NoDup_incl_length; auto; intros x I; apply H; exact I. Qed.
Definition op_set (o : op) : Prop := match o with Conns c => NoDup c | _ => True end.
Lemma sets_ops os : sets os <-> forall o, In o os -> op_set o.
Proof. split; [intros H [c| | | | |] I; simpl; auto; apply (H c I)|intros H c I; apply (H _ I)]. Qed.
Lemma step_nodup n o : op_set o -> NoDup (conns n) -> NoDup (conns (step n o)).
Proof.
  intros O N. destruct o as [c|l| | |i|i]; cbn [step]; auto.
  - destruct (going (stat n)); [|exact N]. destruct (after_conns n c) as (E & _). rewrite E. exact O.
  - destruct (going (stat n)); [exact N|]. rewrite conns_set_status. exact N.
  - destruct (stat n); try exact N; rewrite conns_set_status; unfold reset; cbn [conns]; apply NoDup_nil.
Qed.
Lemma step_right k n o : 4 <= k -> (forall l, o = Pool l -> length l = k) -> op_set o -> NoDup (conns n) -> right_status k n -> right_status k (step n o).
Proof.
  intros K L O N (P & LK & A & B). split; [apply step_params; exact P|]. destruct o as [c|l| | |i|i]; cbn [step].
  - destruct (going (stat n)) eqn:G; [|split; [exact LK|split; [rewrite G; discriminate|intros _; apply B; reflexivity]]].
    destruct (after_conns n c) as (E1 & E2 & _ & _ & _ & E6). cbn zeta in *. rewrite E1, E2, E6. split; [exact LK|]. rewrite G, andb_true_r.
    destruct (changed n c) eqn:C.
    + rewrite status_for_of by (split; [exact (proj1 P)|exact (proj2 P)]). cbn [with_conns conns pool]. rewrite LK.
      split; [reflexivity|]. rewrite status_of_going. discriminate.
    + apply changed_false in C. rewrite (same_length c (conns n) O N C). rewrite G. split; [intros _; apply A; reflexivity|discriminate].
  - unfold set_pool. cbn [pool stat conns]. split; [apply (L l eq_refl)|]. split; assumption.
  - destruct (going (stat n)) eqn:G; [split; [exact LK|]; split; [intros _; apply A; reflexivity|intros F; rewrite G in F; discriminate]|].
    rewrite pool_set_status, stat_set_status, conns_set_status. rewrite (B eq_refl). cbn [length]. rewrite status_of_alone by exact K.
    repeat split; auto.
  - destruct (stat n) eqn:E; try (split; [exact LK|]; split; [rewrite E; discriminate|intros _; apply B; reflexivity]);
      rewrite pool_set_status, stat_set_status, conns_set_status; unfold reset; cbn [pool conns]; rewrite pool_set_status;
      (split; [exact LK|split; [discriminate|reflexivity]]).
  - repeat split; assumption.
  - repeat split; assumption.
Qed.
Lemma run_right k os : forall n, 4 <= k -> pool_size_kept k os -> sets os -> NoDup (conns n) -> right_status k n ->
  right_status k (run n os) /\ NoDup (conns (run n os)).
Proof.
  induction os as [|o os IH]; intros n K L O N R; [split; assumption|]. apply IH.
  - exact K.
  - intros l I. apply L. right. exact I.
  - intros l I. apply O. right. exact I.
  - apply step_nodup; [apply (proj1 (sets_ops _) O); left; reflexivity|exact N].
  - apply step_right; auto; [intros l ->; apply L; left; reflexivity|apply (proj1 (sets_ops _) O); left; reflexivity].
Qed.
Lemma init_right self l k : 4 <= k -> length l = k -> right_status k (init self l).
Proof. intros K L. split; [apply init_params|]. repeat split; [exact L|discriminate]. Qed.

(** *** a pool of one, or any pool as long as nothing gets connected *)
Lemma alone_run os : forall n, conns n = [] -> (stat n = Stopped \/ stat n = Starting) ->
  (forall c, In (Conns c) os -> c = []) -> conns (run n os) = [] /\ (stat (run n os) = Stopped \/ stat (run n os) = Starting).
Proof.
  induction os as [|o os IH]; intros n C Q H; [split; assumption|]. change (run n (o :: os)) with (run (step n o) os).
  assert (X : conns (step n o) = [] /\ (stat (step n o) = Stopped \/ stat (step n o) = Starting)).
  { destruct o as [c|l| | |i|i]; cbn [step]; auto.
    - destruct (going (stat n)); [|auto]. assert (c = []) by (apply H; left; reflexivity). subst c.
      destruct (after_conns n []) as (E1 & _ & _ & _ & _ & E6). cbn zeta in *. rewrite E1, E6. split; [reflexivity|].
      replace (changed n []) with false; [exact Q|]. symmetry. apply changed_false. rewrite C. intros x. tauto.
    - destruct (going (stat n)); [auto|]. rewrite conns_set_status, stat_set_status. auto.
    - destruct Q as [Q|Q]; rewrite Q; [auto|]. rewrite conns_set_status, stat_set_status. auto. }
  apply IH; [apply X|apply X|]. intros c I. apply H. right. exact I.
Qed.

(** *** the buses *)
Lemma alternate_app x up a b : alternate x up (a ++ b) <-> alternate x up a /\ alternate x (fold_left (fun b e => match e with Connected y => if x =? y then true else b | Disconnected y => if x =? y then false else b end) a up) b.
Proof.
  revert up. induction a as [|[y|y] a IH]; intros up; simpl; [tauto| |]; destruct (x =? y); rewrite IH; tauto.
Qed.
Notation ev_step x := (fun (b : bool) e => match e with Connected y => if x =? y then true else b | Disconnected y => if x =? y then false else b end).
Lemma ups x l : forall up, NoDup l -> (In x l -> up = false) ->
  alternate x up (map Connected l) /\ fold_left (ev_step x) (map Connected l) up = mem x l || up.
Proof.
  induction l as [|y l IH]; intros up N H; simpl; [split; [exact I|reflexivity]|]. inversion N as [|? ? N1 N2]; subst.
  destruct (Nat.eqb_spec x y) as [->|Ne].
  - assert (Q : alternate y true (map Connected l) /\ fold_left (ev_step y) (map Connected l) true = mem y l || true) by (apply IH; [exact N2|intros J; contradiction]).
    destruct Q as (Q1 & Q2). split; [split; [apply H; left; reflexivity|exact Q1]|]. simpl in Q2. rewrite Q2, orb_true_r. reflexivity.
  - apply IH; [exact N2|]. intros J. apply H. right. exact J.
Qed.
Lemma downs x l : forall up, NoDup l -> (In x l -> up = true) ->
  alternate x up (map Disconnected l) /\ fold_left (ev_step x) (map Disconnected l) up = negb (mem x l) && up.
Proof.
  induction l as [|y l IH]; intros up N H; simpl; [split; [exact I|reflexivity]|]. inversion N as [|? ? N1 N2]; subst.
  destruct (Nat.eqb_spec x y) as [->|Ne].
  - assert (Q : alternate y false (map Disconnected l) /\ fold_left (ev_step y) (map Disconnected l) false = negb (mem y l) && false) by (apply IH; [exact N2|intros J; contradiction]).
    destruct Q as (Q1 & Q2). split; [split; [apply H; left; reflexivity|exact Q1]|]. rewrite Q2, andb_false_r. reflexivity.
  - apply IH; [exact N2|]. intros J. apply H. right. exact J.
Qed.
Definition good_bus (b : bus) : Prop := NoDup (known b) /\ forall x, alternate x false (heard b) /\ believed x (heard b) = mem x (known b).
Lemma good_new : good_bus new_bus.
Proof. split; [apply NoDup_nil|]. intros x. split; [exact I|reflexivity]. Qed.
Lemma good_update b c : NoDup c -> good_bus b -> good_bus (update_connecteds b c).
Proof.
  intros N (NK & H). split; [exact N|]. intros x. destruct (H x) as (A & B). unfold believed in B. unfold update_connecteds. cbn [heard known].
  set (up := fold_left (ev_step x) (heard b) false) in *.
  destruct (ups x (minus c (known b)) up) as (U1 & U2).
  { apply minus_nodup, N. } { rewrite B. intros J. apply minus_in in J. apply mem_false. tauto. }
  destruct (downs x (minus (known b) c) (mem x (minus c (known b)) || up)) as (D1 & D2).
  { apply minus_nodup, NK. } { intros J. apply minus_in in J as (J & _). apply orb_true_iff. right. rewrite B. apply mem_true, J. }
  split.
  - apply alternate_app. split; [exact A|]. fold up. apply alternate_app. split; [exact U1|]. rewrite U2. exact D1.
  - unfold believed. rewrite !fold_left_app. fold up. rewrite U2, D2, B. apply eq_true_iff_eq.
    rewrite andb_true_iff, orb_true_iff, negb_true_iff, mem_false, !mem_true, !minus_in.
    destruct (mem x c) eqn:E; [apply mem_true in E|apply mem_false in E]; destruct (mem x (known b)) eqn:F; [apply mem_true in F|apply mem_false in F|apply mem_true in F|apply mem_false in F]; tauto.
Qed.
Lemma step_buses n o : op_set o -> (forall r, In r (reps n) -> good_bus (snd r)) -> forall r, In r (reps (step n o)) -> good_bus (snd r).
Proof.
  intros O H r I. destruct o as [c|l| | |i|i]; cbn [step] in I; auto.
  - destruct (going (stat n)); [|auto]. destruct (after_conns n c) as (_ & _ & _ & _ & E & _). cbn zeta in E. rewrite E in I.
    destruct (changed n c); [|auto]. apply in_map_iff in I as (q & <- & Q). cbn [snd]. apply good_update; auto.
  - destruct (going (stat n)); [auto|]. rewrite reps_set_status in I. auto.
  - destruct (stat n); auto; rewrite reps_set_status in I; unfold reset in I; cbn [reps] in I; rewrite reps_set_status in I; auto.
  - cbn [reps] in I. destruct r as (k, b). apply in_set in I as [(-> & ->)|I]; [apply good_new|apply H; exact I].
  - cbn [reps] in I. apply filter_In in I as (I & _). auto.
Qed.
Lemma run_buses os : forall n, sets os -> (forall r, In r (reps n) -> good_bus (snd r)) -> forall r, In r (reps (run n os)) -> good_bus (snd r).
Proof.
  induction os as [|o os IH]; intros n O H; [exact H|]. apply IH; [intros c I; apply O; right; exact I|].
  apply step_buses; [apply (proj1 (sets_ops _) O); left; reflexivity|exact H].
Qed.

Lemma get_map {V W} (f : V -> W) (d : dict V) i : get i (map (fun r => (fst r, f (snd r))) d) = option_map f (get i d).
Proof. induction d as [|(k, v) d IH]; simpl; [reflexivity|]. destruct (i =? k); [reflexivity|exact IH]. Qed.
(** a replica that knows the connections goes on knowing them *)
Definition knows (i : nat) (n : node) : Prop := exists b, get i (reps n) = Some b /\ same_set (known b) (conns n).
Lemma step_knows i n o : o <> Stop -> o <> RemoveReplica i -> o <> AddReplica i -> knows i n -> knows i (step n o).
Proof.
  intros A B C (b & G & K). destruct o as [c|l| | |j|j]; cbn [step]; try (exists b; split; assumption).
  - destruct (going (stat n)); [|exists b; split; assumption]. destruct (after_conns n c) as (E1 & _ & _ & _ & E & _). cbn zeta in *.
    unfold knows. rewrite E1, E. destruct (changed n c) eqn:CH.
    + exists (update_connecteds b c). rewrite (get_map (fun b => update_connecteds b c)), G. split; [reflexivity|]. intros x. tauto.
    + exists b. split; [exact G|]. apply changed_false in CH. intros x. rewrite (K x). symmetry. apply CH.
  - destruct (going (stat n)); [exists b; split; assumption|]. unfold knows. rewrite reps_set_status, conns_set_status. exists b. split; assumption.
  - contradiction.
  - unfold knows. cbn [reps conns]. rewrite get_set. destruct (Nat.eqb_spec i j) as [->|N]; [contradiction|]. exists b. split; assumption.
  - unfold knows. cbn [reps conns]. rewrite get_del. destruct (Nat.eqb_spec i j) as [->|N]; [contradiction|]. exists b. split; assumption.
Qed.
Lemma run_knows i os : forall n, ~ In Stop os -> ~ In (RemoveReplica i) os -> ~ In (AddReplica i) os -> knows i n -> knows i (run n os).
Proof.
  induction os as [|o os IH]; intros n A B C K; [exact K|]. simpl in A, B, C. apply IH; [tauto|tauto|tauto|].
  apply step_knows; [intros ->; tauto|intros ->; tauto|intros ->; tauto|exact K].
Qed.

(** *** the watcher *)
Lemma wrun_app w a b : wrun w (a ++ b) = wrun (wrun w a) b.
Proof. apply fold_left_app. Qed.
Lemma wconn_in os : forall x, In x (w_conn (wrun new_watcher os)) <-> linked x os = true.
Proof.
  induction os as [|o os IH] using rev_ind; intros x; [simpl; split; [intros []|discriminate]|]. rewrite wrun_app. unfold linked. rewrite fold_left_app.
  fold (linked x os). specialize (IH x). cbn [fold_left wrun]. destruct o as [y|y|l]; cbn [wstep].
  - cbn [w_conn]. rewrite add_in, IH. destruct (Nat.eqb_spec x y); intuition congruence.
  - destruct (w_reached _ && _); cbn [w_conn]; rewrite discard_in, IH; destruct (Nat.eqb_spec x y) as [->|N]; intuition congruence.
  - cbn [w_conn]. exact IH.
Qed.
Lemma wconn_nodup os : NoDup (w_conn (wrun new_watcher os)).
Proof.
  induction os as [|o os IH] using rev_ind; [apply NoDup_nil|]. rewrite wrun_app. cbn [fold_left wrun]. destruct o as [y|y|l]; cbn [wstep].
  - apply add_nodup, IH.
  - destruct (w_reached _ && _); cbn [w_conn]; apply NoDup_filter, IH.
  - exact IH.
Qed.
(** enough were connected at some time since the last call *)
Lemma reached_since os : w_reached (wrun new_watcher os) = true ->
  exists os1 y os2, os = os1 ++ WConnect y :: os2 /\
    strong (length (w_nodes (wrun new_watcher os1))) <= length (w_conn (wrun new_watcher (os1 ++ [WConnect y]))) /\
    w_calls (wrun new_watcher os) = w_calls (wrun new_watcher os1).
Proof.
  induction os as [|o os IH] using rev_ind; [discriminate|]. rewrite wrun_app. cbn [fold_left wrun].
  assert (X : forall w', w_reached w' = w_reached (wrun new_watcher os) -> w_calls w' = w_calls (wrun new_watcher os) -> w_reached w' = true ->
    exists os1 y os2, os ++ [o] = os1 ++ WConnect y :: os2 /\
    strong (length (w_nodes (wrun new_watcher os1))) <= length (w_conn (wrun new_watcher (os1 ++ [WConnect y]))) /\
    w_calls w' = w_calls (wrun new_watcher os1)).
  { intros w' E1 E2 R. rewrite E1 in R. destruct (IH R) as (os1 & y & os2 & E & Q & C). exists os1, y, (os2 ++ [o]). rewrite E at 1.
    rewrite <- app_assoc. split; [reflexivity|]. split; [exact Q|]. congruence. }
  destruct o as [y|y|l].
  - destruct (strong (length (w_nodes (wrun new_watcher os))) <=? length (add y (w_conn (wrun new_watcher os)))) eqn:S1.
    + intros _. exists os, y, []. split; [reflexivity|]. split; [|reflexivity]. rewrite wrun_app. cbn [wrun fold_left wstep w_conn]. apply Nat.leb_le, S1.
    + intros R. apply X; [| |exact R]; cbn [wstep w_reached w_calls]; rewrite ?S1; reflexivity.
  - cbn [wstep]. destruct (w_reached (wrun new_watcher os) && _) eqn:E; [discriminate|]. intros R. apply X; [reflexivity|reflexivity|exact R].
  - intros R. apply X; [reflexivity|reflexivity|exact R].
Qed.

(** with the pool fixed *)
Definition wgood (k : nat) (w : watcher) : Prop :=
  length (w_nodes w) = k /\ (strong k <= length (w_conn w) -> w_reached w = true) /\ (w_reached w = true -> weak k <= length (w_conn w)).
Lemma discard_length x l : length (discard x l) <= length l.
Proof. induction l as [|y l IH]; simpl; [lia|]. destruct (negb (x =? y)); simpl; lia. Qed.
Lemma add_length x l : length l <= length (add x l).
Proof. unfold add. destruct (existsb _ _); [lia|]. rewrite app_length. lia. Qed.
Lemma wstep_good k w o : k <> 0 -> (forall l, o <> WNodes l) -> wgood k w -> wgood k (wstep w o).
Proof.
  intros K NO (L & A & B). destruct o as [x|x|l]; cbn [wstep].
  - split; [exact L|]. cbn [w_conn w_reached]. rewrite L. pose proof (add_length x (w_conn w)). pose proof (weak_strong k K).
    destruct (Nat.leb_spec (strong k) (length (add x (w_conn w)))); split; intros; auto; try lia. specialize (B H2). lia.
  - rewrite L. pose proof (discard_length x (w_conn w)). destruct (w_reached w) eqn:R; cbn [andb].
    + destruct (Nat.leb_spec (weak k) (length (discard x (w_conn w)))); cbn [negb].
      * split; [exact L|]. cbn [w_conn w_reached]. split; auto.
      * split; [exact L|]. cbn [w_conn w_reached]. pose proof (weak_strong k K). split; intros; [lia|discriminate].
    + split; [exact L|]. cbn [w_conn w_reached]. split; intros; [apply A; lia|discriminate].
  - exfalso. apply (NO l). reflexivity.
Qed.
Lemma wrun_good k os : forall w, k <> 0 -> no_pool_change os -> wgood k w -> wgood k (wrun w os).
Proof.
  induction os as [|o os IH]; intros w K NO G; [exact G|]. apply IH; [exact K|intros l I; apply (NO l); right; exact I|].
  apply wstep_good; auto. intros l ->. apply (NO l). left. reflexivity.
Qed.
Lemma wcalls_mono os : forall w, w_calls w <= w_calls (wrun w os).
Proof.
  induction os as [|o os IH]; intros w; [reflexivity|]. change (wrun w (o :: os)) with (wrun (wstep w o) os).
  etransitivity; [|apply IH]. destruct o; cbn [wstep]; [reflexivity| |reflexivity]. destruct (_ && _); simpl; lia.
Qed.
Lemma wcalls_reached os : forall w, w_reached w = true -> w_calls (wrun w os) = w_calls w -> w_reached (wrun w os) = true.
Proof.
  induction os as [|o os IH]; intros w R C; [exact R|]. change (wrun w (o :: os)) with (wrun (wstep w o) os) in *.
  pose proof (wcalls_mono os (wstep w o)).
  assert (w_calls w <= w_calls (wstep w o)) by (apply (wcalls_mono [o])).
  apply IH; [|lia]. destruct o as [x|x|l]; cbn [wstep] in *.
  - cbn [w_reached]. rewrite R. destruct (_ <=? _); reflexivity.
  - destruct (w_reached w && _) eqn:E; [cbn [w_calls] in *; lia|exact R].
  - exact R.
Qed.

(** the node's watcher *)
Lemma wdis l : forall w x, In x (w_conn (wrun w (map WDisconnect l))) <-> In x (w_conn w) /\ ~ In x l.
Proof.
  induction l as [|y l IH]; intros w x; [simpl; tauto|]. cbn [map]. change (wrun w (WDisconnect y :: map WDisconnect l)) with (wrun (wstep w (WDisconnect y)) (map WDisconnect l)).
  rewrite IH. cbn [wstep]. destruct (w_reached w && _); cbn [w_conn]; rewrite discard_in; simpl; intuition congruence.
Qed.
Lemma wcon l : forall w x, In x (w_conn (wrun w (map WConnect l))) <-> In x (w_conn w) \/ In x l.
Proof.
  induction l as [|y l IH]; intros w x; [simpl; tauto|]. cbn [map]. change (wrun w (WConnect y :: map WConnect l)) with (wrun (wstep w (WConnect y)) (map WConnect l)).
  rewrite IH. cbn [wstep w_conn]. rewrite add_in. simpl. intuition congruence.
Qed.
Lemma watch_conns n c : watch (conns_changed n c) =
  if changed n c then wrun (wrun (watch n) (map WDisconnect (minus (conns n) c))) (map WConnect (minus c (conns n))) else watch n.
Proof.
  rewrite conns_changed_eq. destruct (changed n c); [|reflexivity]. cbn zeta. cbn [stat with_conns watch].
  destruct (going (stat n)); rewrite ?watch_set_status; reflexivity.
Qed.
Lemma step_watches self n o : o <> Stop -> (forall c, o = Conns c -> ~ In self c) -> ~ In self (conns n) ->
  same_set (w_conn (watch n)) (self :: conns n) ->
  ~ In self (conns (step n o)) /\ same_set (w_conn (watch (step n o))) (self :: conns (step n o)).
Proof.
  intros NS NC NI H. destruct o as [c|l| | |i|i]; cbn [step]; try (split; assumption).
  - destruct (going (stat n)); [|split; assumption]. destruct (after_conns n c) as (E & _). cbn zeta in E. rewrite E, watch_conns.
    specialize (NC c eq_refl). split; [exact NC|]. intros x. specialize (H x). cbn [In] in *. destruct (changed n c) eqn:C.
    + rewrite wcon, wdis, H, !minus_in. destruct (in_dec Nat.eq_dec x c); destruct (in_dec Nat.eq_dec x (conns n)); intuition congruence.
    + apply changed_false in C. rewrite H, (C x). tauto.
  - destruct (going (stat n)); [split; assumption|]. rewrite conns_set_status, watch_set_status. split; assumption.
  - contradiction.
Qed.
Lemma run_watches self os : forall n, ~ In Stop os -> (forall c, In (Conns c) os -> ~ In self c) -> ~ In self (conns n) ->
  same_set (w_conn (watch n)) (self :: conns n) -> same_set (w_conn (watch (run n os))) (self :: conns (run n os)).
Proof.
  induction os as [|o os IH]; intros n A B C H; [exact H|]. simpl in A.
  destruct (step_watches self n o) as (C' & H'); [intros ->; tauto|intros c ->; apply B; left; reflexivity|exact C|exact H|].
  apply IH; [tauto|intros c I; apply B; right; exact I|exact C'|exact H'].
Qed.

(** *** the changes of status told *)
Lemma chain_snoc l : forall a b c, chain a l b -> b <> c -> chain a (l ++ [(b, c)]) c.
Proof. induction l as [|(x, y) l IH]; simpl; intros a b c H N; [subst; auto|]. destruct H as (-> & N1 & H). repeat split; auto. Qed.
Lemma told_set_status n s : chain Stopped (told n) (stat n) -> chain Stopped (told (set_status n s)) (stat (set_status n s)).
Proof.
  intros H. unfold set_status. destruct (status_eqb (stat n) s) eqn:E; [exact H|]. cbn [told stat]. apply chain_snoc; [exact H|].
  intros F. rewrite F in E. destruct s; discriminate.
Qed.
Lemma step_told n o : chain Stopped (told n) (stat n) -> chain Stopped (told (step n o)) (stat (step n o)).
Proof.
  intros H. destruct o as [c|l| | |i|i]; cbn [step]; try exact H.
  - destruct (going (stat n)) eqn:G; [|exact H]. rewrite conns_changed_eq. destruct (changed n c); [|exact H]. cbn zeta. cbn [stat with_conns].
    rewrite G. cbn [told stat]. apply told_set_status. exact H.
  - destruct (going (stat n)); [exact H|]. apply told_set_status, H.
  - destruct (stat n) eqn:E; rewrite <- E in H; try (rewrite E; rewrite E in H; exact H); apply told_set_status; unfold reset; cbn [told stat]; apply told_set_status, H.
Qed.
Lemma run_told os : forall n, chain Stopped (told n) (stat n) -> chain Stopped (told (run n os)) (stat (run n os)).
Proof. induction os as [|o os IH]; intros n H; [exact H|]. apply IH, step_told, H. Qed.
