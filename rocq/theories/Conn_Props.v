(** C82: a node stays in touch with the nodes of the pool. *)
From Coq Require Import List Arith Bool Lia.
Import ListNotations.
From Verif Require Import Dict Conn_Model Conn_Spec Conn_Proofs.

(** The connection counts as lost if and only if the events end with its loss. *)
Theorem C82_lost evs : lost evs = true <-> ends_lost evs.
Proof. apply lost_iff. Qed.

Section C82.
  Variables (self : nat) (local : nat -> bool) (retry_connect retry_socket : bool) (max_retry timeout : nat).
  Notation step := (step self local retry_connect retry_socket max_retry timeout).
  Notation run := (run self local retry_connect retry_socket max_retry timeout).
  Notation pool_run := (pool_run self local retry_connect retry_socket max_retry timeout).

  (** ** While no two nodes have one address *)
  (** Nothing is raised, and every remote is where the pool ledger says, with the key it says, and with a socket of its own; no socket
      is left open. *)
  Theorem C82_places reg ks os : pool_init reg -> pool_run (init reg ks) os ->
    exists s, run (init reg ks) os = Some s /\
      (forall n r, get n (remotes s) = Some r -> n <> self /\ in_place s n r) /\
      (forall m n x y, get m (remotes s) = Some x -> get n (remotes s) = Some y -> r_sock x = r_sock y -> m = n) /\
      (forall k, In k (open s) -> exists n r, get n (remotes s) = Some r /\ r_sock r = Some k) /\ NoDup (open s).
  Proof.
    intros Hi Hp. destruct (run_inv self local retry_connect retry_socket max_retry timeout os _ (init_inv self reg ks Hi) Hp) as (s & E & I).
    exists s. split; [exact E|]. destruct I as (N & D & R & P & J & O & Q). split; [|split; [exact J|split; [|exact O]]].
    - intros n r H. destruct (P n r H) as (A & B & C & k & F & _ & G). split; [exact A|]. unfold in_place. eauto 6.
    - intros k H. apply (Q k H).
  Qed.
  (** After the nodes were looked for, each node of the pool whose key is there has a remote, where the ledger says. *)
  Theorem C82_connects reg ks os f s s' : pool_init reg -> pool_run (init reg ks) os -> run (init reg ks) os = Some s ->
    f = true \/ next_check s <= now s -> step s (Maintain f) = Some s' ->
    forall n a k, get n (registry s) = Some a -> n <> self -> get n (keys s) = Some k ->
    exists r, get n (remotes s') = Some r /\ r_ha r = a /\ r_key r = k /\ in_place s' n r.
  Proof.
    intros Hi Hp E Hf H n a k Ha Hs Hk. destruct (run_inv self local retry_connect retry_socket max_retry timeout os _ (init_inv self reg ks Hi) Hp) as (s0 & E0 & I).
    assert (s0 = s) as -> by congruence. injection H as <-. destruct (maintain_inv self local retry_connect retry_socket max_retry timeout f s I) as (I' & G & M).
    destruct (M Hf n a k Ha Hs Hk) as (r & Hr). exists r. split; [exact Hr|]. destruct G as (G1 & G2 & _). destruct I' as (_ & _ & _ & P & _).
    destruct (P n r Hr) as (_ & B & C & q & F & _ & G). unfold in_place. rewrite G1, G2 in *. split; [congruence|]. split; [congruence|]. eauto 6.
  Qed.
  (** The same at once when a node joins, moves or gets other keys. *)
  Theorem C82_change reg ks os o s s' n a k : pool_init reg -> pool_run (init reg ks) (os ++ [o]) -> run (init reg ks) os = Some s -> step s o = Some s' -> n <> self ->
    o = Join n a k \/ (o = Move n a /\ get n (keys s) = Some k) \/ (o = Rekey n k /\ get n (registry s) = Some a) ->
    exists r, get n (remotes s') = Some r /\ r_ha r = a /\ r_key r = k /\ in_place s' n r.
  Proof.
    intros Hi Hp E H Hs Ho. destruct (pool_run_app self local retry_connect retry_socket max_retry timeout os [o] _ s E Hp) as [P1 [P2 _]].
    destruct (run_inv self local retry_connect retry_socket max_retry timeout os _ (init_inv self reg ks Hi) P1) as (s0 & E0 & I).
    assert (s0 = s) as -> by congruence.
    destruct (change_inv self local retry_connect retry_socket max_retry timeout s o s' n a k I P2 H Hs Ho) as (I' & A & B & r & Hr).
    exists r. split; [exact Hr|]. destruct I' as (_ & _ & _ & P & _). destruct (P n r Hr) as (_ & C & D & q & F & _ & G). unfold in_place.
    split; [congruence|]. split; [congruence|]. eauto 6.
  Qed.
  (** A check takes for connected who was heard on the connection in use and has not been lost since; nobody else. *)
  Theorem C82_check reg ks os s s' : pool_init reg -> pool_run (init reg ks) os -> run (init reg ks) os = Some s -> step s Check = Some s' ->
    forall n, In n (conns s') <-> exists r, get n (remotes s) = Some r /\ r_conn r = true /\ ~ ends_lost (r_evs r).
  Proof.
    intros Hi Hp E H n. destruct (run_inv self local retry_connect retry_socket max_retry timeout os _ (init_inv self reg ks Hi) Hp) as (s0 & E0 & I).
    assert (s0 = s) as -> by congruence. destruct (check_result _ _ H) as [Hc _]. rewrite Hc. destruct I as (N & D & R & P & _).
    rewrite (connecteds_in _ n R). split; intros (r & Hr & X); exists r; (split; [exact Hr|]); destruct (P n r Hr) as (_ & _ & _ & k & F & _); unfold look in *; rewrite F in *.
    - destruct (r_conn r); [|discriminate]. split; [reflexivity|]. intros L. apply lost_iff in L. rewrite L in X. discriminate.
    - destruct X as [-> X]. destruct (lost (r_evs r)) eqn:L; [|reflexivity]. apply lost_iff in L. contradiction.
  Qed.

  (** The same from what happened since an earlier moment, if nobody looked in between. *)
  Theorem C82_seen reg ks os s os1 s1 s2 : pool_init reg -> pool_run (init reg ks) os -> run (init reg ks) os = Some s ->
    (forall o, In o os1 -> unseen o) -> run s os1 = Some s1 -> step s1 Check = Some s2 ->
    forall n, In n (conns s2) <-> exists r, get n (remotes s) = Some r /\ ~ ends_lost (r_evs r ++ told n os1) /\
      (r_conn r = true \/ exists k b, In (Received k b) os1 /\ (retry_connect = false \/ b = true) /\ get k (by_key s) = Some n).
  Proof.
    intros Hi Hp E Ho E1 H n. destruct (run_inv self local retry_connect retry_socket max_retry timeout os _ (init_inv self reg ks Hi) Hp) as (s0 & E0 & I).
    assert (s0 = s) as -> by congruence. pose proof I as (_ & _ & R & P & _).
    destruct (unseen_run self local retry_connect retry_socket max_retry timeout os1 s s1 Ho) as (_ & N & B); [|exact E1|].
    { intros m r Hr. destruct (P m r Hr) as (_ & _ & _ & k & -> & _). discriminate. }
    assert (pool_run (init reg ks) (os ++ os1)) as Hp1.
    { clear -Hp E Ho. revert Hp E. generalize (init reg ks). induction os as [|o os IH]; intros x Hp E; cbn [app Conn_Spec.pool_run Conn_Model.run] in *.
      - injection E as ->. clear -Ho. revert s. induction os1 as [|o os1 IH]; intros s; [exact Logic.I|]. cbn [Conn_Spec.pool_run]. split.
        + specialize (Ho o (or_introl eq_refl)). destruct o; try (destruct Ho; fail); exact Logic.I.
        + destruct (step s o); [|exact Logic.I]. apply IH. intros y Hy. apply Ho. now right.
      - destruct Hp as [Hp1 Hp2]. split; [assumption|]. destruct (step x o) as [x1|]; [|exact Logic.I]. apply IH; assumption. }
    assert (run (init reg ks) (os ++ os1) = Some s1) as E01. { rewrite (run_app self local retry_connect retry_socket max_retry timeout), E. exact E1. }
    rewrite (C82_check reg ks (os ++ os1) s1 s2 Hi Hp1 E01 H n). split.
    - intros (r & Hr & Hc & Hl). destruct (get n (remotes s)) as [r0|] eqn:Er; [|rewrite (N n Er) in Hr; discriminate].
      destruct (B n r0 Er) as (r1 & F1 & _ & F3 & F4). assert (r = r1) as -> by congruence. exists r0. split; [reflexivity|]. rewrite <- F3. split; [assumption|]. now apply F4.
    - intros (r & Hr & Hl & Hc). destruct (B n r Hr) as (r1 & F1 & _ & F3 & F4). exists r1. split; [assumption|]. rewrite F3. split; [now apply F4|assumption].
  Qed.

  (** ** In every pool *)
  (** Nobody counts as connected without having been heard. *)
  Theorem C82_heard reg ks os s n r : run (init reg ks) os = Some s -> get n (remotes s) = Some r -> r_conn r = true -> exists b, In (Received (r_key r) b) os.
  Proof.
    intros E Hr Hc. destruct (run_good self local retry_connect retry_socket max_retry timeout os _ _ _ (init_good reg ks) E) as [_ H].
    destruct (H n r Hr Hc) as [[]|H']; exact H'.
  Qed.
  (** The reports tell all: who only hears them knows who is connected. Each tells something, and exactly what has changed. *)
  Theorem C82_reports reg ks os s : run (init reg ks) os = Some s -> forall x, In x (replay (reports s)) <-> In x (conns s).
  Proof. intros E. apply (replay_inv self local retry_connect retry_socket max_retry timeout os _ _ E). intros x. reflexivity. Qed.
  Theorem C82_report s o s' : step s o = Some s' ->
    (reports s' = reports s /\ (forall x, In x (conns s') <-> In x (conns s))) \/
    exists i u, reports s' = reports s ++ [(i, u)] /\ i ++ u <> [] /\
      (forall x, In x i <-> In x (conns s') /\ ~ In x (conns s)) /\ (forall x, In x u <-> In x (conns s) /\ ~ In x (conns s')).
  Proof.
    intros H. assert (o = Check \/ o <> Check) as [-> | Hc] by (destruct o; auto; right; discriminate).
    - destruct (check_result _ _ H) as [_ [[A B]|X]]; [left|right; exact X]. split; [assumption|]. intros x. now rewrite A.
    - destruct (step_quiet self local retry_connect retry_socket max_retry timeout s o s' Hc H) as [A B]. left. split; [assumption|]. intros x. now rewrite A.
  Qed.

  (** ** Trying again *)
  (** If configured, a node that does not answer is tried on its socket as often as configured, then on a new one. *)
  Theorem C82_retry reg ks os s n r : retry_connect = true -> retry_socket = true -> pool_init reg -> pool_run (init reg ks) os -> run (init reg ks) os = Some s ->
    get n (remotes s) = Some r -> r_conn r = false ->
    (forall j, get_or n 0 (retries s) + j <= max_retry -> exists s', run s (turns timeout j) = Some s' /\ get n (remotes s') = Some r) /\
    (forall j, get_or n 0 (retries s) + j = max_retry ->
       exists s' r', run s (turns timeout j ++ turn timeout) = Some s' /\ get n (remotes s') = Some r' /\ r_ha r' = r_ha r /\ r_key r' = r_key r /\ r_sock r' <> r_sock r).
  Proof.
    intros Hc Hs Hi Hp E Hr Hn. destruct (run_inv self local retry_connect retry_socket max_retry timeout os _ (init_inv self reg ks Hi) Hp) as (s0 & E0 & I).
    assert (s0 = s) as -> by congruence.
    assert (timely timeout s) as Ht. { eapply run_timely; [|exact E]. unfold timely, init. cbn. lia. }
    split; intros j Hj.
    - destruct (same_socket self local retry_connect retry_socket max_retry timeout j s n r I Ht Hc Hs Hr Hn Hj) as (s' & A & _ & _ & B & _). eauto.
    - destruct (new_socket self local retry_connect retry_socket max_retry timeout j s n r I Ht Hc Hs Hr Hn Hj) as (s' & q & A & B & C).
      exists s', (with_sock (Some q) false r). split; [exact A|]. split; [exact B|]. repeat split. cbn. congruence.
  Qed.
  (** As delivered ([RETRY_CONNECT] off), nothing is done: once lost, a node stays lost until it is heard, and is not even pinged, whatever
      its socket tells (a connection made again, too). *)
  Theorem C82_quiet_refuted reg ks os s os' s' : retry_connect = false -> pool_init reg -> pool_run (init reg ks) os -> run (init reg ks) os = Some s ->
    (forall n a k, get n (registry s) = Some a -> n <> self -> get n (keys s) = Some k -> exists r, get n (remotes s) = Some r) ->
    (forall o, In o os' -> idle o) -> run s os' = Some s' ->
    acts s' = acts s /\ (forall n r, get n (remotes s) = Some r -> r_conn r = false -> exists r', get n (remotes s') = Some r' /\ r_conn r' = false).
  Proof.
    intros Hc Hi Hp E Ha Ho E'. destruct (run_inv self local retry_connect retry_socket max_retry timeout os _ (init_inv self reg ks Hi) Hp) as (s0 & E0 & I).
    assert (s0 = s) as -> by congruence. eapply (idle_run self local retry_connect retry_socket max_retry timeout); eauto.
  Qed.
End C82.
Print Assumptions C82_lost.
Print Assumptions C82_places.
Print Assumptions C82_connects.
Print Assumptions C82_change.
Print Assumptions C82_check.
Print Assumptions C82_seen.
Print Assumptions C82_heard.
Print Assumptions C82_reports.
Print Assumptions C82_report.
Print Assumptions C82_retry.
Print Assumptions C82_quiet_refuted.

(** ** Examples *)
(** Node 1 of a pool of three; keys 11, 12, 13, addresses (n, 100). *)
Definition reg3 : dict (nat * nat) := [(1, (1, 100)); (2, (2, 100)); (3, (3, 100))].
Definition keys3 : dict nat := [(1, 11); (2, 12); (3, 13)].
Definition go (retry : bool) (os : list op) : option state := run 1 (Nat.eqb 1) retry retry 2 5 (init reg3 keys3) os.
Definition summary (o : option state) : option (list nat * list (list nat * list nat) * list (nat * option nat) * list nat) :=
  option_map (fun s => (conns s, reports s, map (fun x => (fst x, r_sock (snd x))) (remotes s), open s)) o.
(** Both are heard, 2 is lost, 3 moves. *)
Definition life : list op :=
  [Maintain false; Received 12 true; Check; Received 13 false; Check; Event 2 Disconnected; Check; Move 3 (4, 100); Check].
Example C82_life : summary (go false life) = Some ([], [([2], []); ([3], []); ([], [2]); ([], [3])], [(2, Some 0); (3, Some 2)], [0; 2]) /\
  pool_init reg3 /\ pool_run 1 (Nat.eqb 1) false false 2 5 (init reg3 keys3) life.
Proof.
  split; [reflexivity|]. split.
  - split; [repeat constructor; cbn; intuition discriminate|]. intros m n a H H'. apply get_in in H, H'. cbn in H, H'.
    destruct H as [[= <- <-]|[[= <- <-]|[[= <- <-]|[]]]], H' as [[=]|[[=]|[[=]|[]]]]; congruence.
  - cbn [pool_run life]. repeat (split; [exact I|]; lazymatch goal with |- match ?x with _ => _ end => let y := eval vm_compute in x in change x with y end; cbv beta iota).
    split; [|lazymatch goal with |- match ?x with _ => _ end => let y := eval vm_compute in x in change x with y end; split; [exact I|exact I]].
    split; [exists (3, 100); reflexivity|]. intros m b Hm H. apply get_in in H. cbn in H.
    destruct H as [[= <- <-]|[[= <- <-]|[[= <- <-]|[]]]]; congruence.
Qed.
(** Trying again, at most twice on one socket *)
Example C82_again : summary (go true (Maintain true :: turns 5 2)) = Some ([], [], [(2, Some 0); (3, Some 1)], [0; 1]) /\
  summary (go true (Maintain true :: turns 5 3)) = Some ([], [], [(2, Some 2); (3, Some 3)], [2; 3]).
Proof. split; reflexivity. Qed.
(** As delivered: a short interruption, after which the connection is there again, but nobody says anything: 2 stays lost, and is
    not pinged. *)
Example C82_interruption :
  let before := [Maintain true; Received 12 true; Check] in
  let after := before ++ [Event 2 Disconnected; Check; Maintain true; Event 2 Delayed; Event 2 Connected] in
  forall j, j <= 9 -> option_map (fun s => (conns s, acts s)) (go false (after ++ turns 5 j)) = Some ([], [Open 2 (2, 100); Ping 2; Open 3 (3, 100); Ping 3]).
Proof. cbv zeta. intros j Hj. do 10 (destruct j as [|j]; [reflexivity|]). lia. Qed.
(** It depends on the moment of the check whether a loss is noticed. *)
Theorem C82_polling_refuted : exists os os', go false os <> None /\
  filter (fun o => match o with Check => false | _ => true end) os = filter (fun o => match o with Check => false | _ => true end) os' /\
  option_map conns (go false (os ++ [Check])) = Some [2] /\ option_map conns (go false (os' ++ [Check])) = Some [].
Proof.
  exists [Maintain true; Received 12 true; Event 2 Disconnected; Event 2 Delayed], [Maintain true; Received 12 true; Event 2 Disconnected; Check; Event 2 Delayed].
  repeat split; try reflexivity. discriminate.
Qed.
(** Two nodes at one address that connect at once stop the node. *)
Theorem C82_same_address_refuted : exists reg ks os, (forall n, In n (map fst reg) -> In n [1; 2; 3]) /\
  run 1 (Nat.eqb 1) false false 2 5 (init reg ks) os <> None /\ run 1 (Nat.eqb 1) false false 2 5 (init reg ks) (os ++ [Check]) = None.
Proof.
  exists [(1, (1, 100)); (2, (2, 100)); (3, (2, 100))], keys3, [Maintain true; Received 12 true; Received 13 true].
  split; [cbn; tauto|]. split; [discriminate|reflexivity].
Qed.
Print Assumptions C82_polling_refuted.
Print Assumptions C82_same_address_refuted.
