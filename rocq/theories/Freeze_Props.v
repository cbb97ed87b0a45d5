(** C76: freezing ledgers. *)
From Coq Require Import List Arith NArith Bool Lia.
From Verif Require Import Base Dict Merkle_Model Ledger_Model Tracker_Model Audit_Model Freeze_Model Freeze_Spec Freeze_Proofs.
Import ListNotations.

(** A ledger gets frozen only by a batch on the config ledger, by the request of a trustee that names it; it is
    none of the core, it was known when the last committed batch was made, and what is recorded tells of it as it
    was then. *)
Theorem C76_who root head g s b qs s' lid i : proper g -> reach root head g s -> step root head s (Apply b qs) = Ok s' ->
  get lid (frozen_of (stack s)) = None -> get lid (frozen_of (stack s')) = Some i ->
  b = CONFIG_LEDGER_ID /\ ~ core lid /\
  (exists lids, In (Freeze true lids) qs /\ In lid lids) /\
  exists x l t, committed s = x :: l /\ get lid (ledgers x) = Some t /\ describes root head lid t i.
Proof. apply new_frozen. Qed.
Print Assumptions C76_who.

(** Such a request does freeze what it names. *)
Theorem C76_frozen root head g s x l lids s' : proper g -> reach root head g s -> committed s = x :: l ->
  (forall lid, In lid lids -> ~ core lid /\ get lid (ledgers x) <> None /\ get lid (frozen x) = None) ->
  step root head s (Apply CONFIG_LEDGER_ID [Freeze true lids]) = Ok s' ->
  forall lid, In lid lids -> get lid (frozen_of (stack s')) <> None.
Proof.
  intros P R Ec H E. apply (frozen_now root head g s true lids s' P R E).
  destruct (inv_reach root head g s P R) as ((_ & _ & Ch) & _). apply (chain_skipn root head _ _ (pending s)) in Ch. fold (committed s) in Ch.
  rewrite Ec in Ch |- *. destruct Ch as (_ & _ & (S1 & _) & _). unfold may_freeze. cbn [map]. apply andb_true_iff. split; [apply andb_true_iff; split; [|reflexivity]|].
  - apply negb_true_iff. destruct (existsb is_valid_id lids) eqn:X; [|reflexivity]. apply existsb_exists in X. destruct X as (k & Hk & Vk).
    apply core_spec in Vk. destruct (H k Hk) as (N & _). contradiction.
  - apply forallb_forall. intros k Hk. destruct (H k Hk) as (N & G & F). destruct (get k (ledgers x)) as [t|] eqn:Gt; [|contradiction].
    destruct (S1 k t) as (Sz & _); [intros ->; apply N; unfold core, AUDIT_LEDGER_ID; lia|exact Gt|exact F|]. rewrite Sz. reflexivity.
Qed.
Print Assumptions C76_frozen.

(** What is frozen stays frozen, with the same record and the same transactions: from every batch on to every
    later one of those applied, and by the next one. *)
Theorem C76_kept root head g s i j x y lid r : proper g -> reach root head g s -> i <= j ->
  nth_error (stack s) i = Some y -> nth_error (stack s) j = Some x ->
  get lid (frozen x) = Some r -> get lid (frozen y) = Some r /\ (~ core lid -> get lid (ledgers y) = get lid (ledgers x)).
Proof. apply stays. Qed.
Print Assumptions C76_kept.
Theorem C76_refused root head g s b qs s' lid r : proper g -> reach root head g s -> step root head s (Apply b qs) = Ok s' ->
  get lid (frozen_of (stack s)) = Some r ->
  get lid (frozen_of (stack s')) = Some r /\
  (~ core lid -> get lid (ledgers_of (genesis s') (stack s')) = get lid (ledgers_of (genesis s) (stack s))).
Proof. apply keeps. Qed.
Print Assumptions C76_refused.

(** No batch raises an error, once one is committed (before: see the refutation). *)
Theorem C76_no_error_partial root head g s b qs : proper g -> reach root head g s -> committed s <> [] ->
  exists s', step root head s (Apply b qs) = Ok s'.
Proof. apply no_error. Qed.
Print Assumptions C76_no_error_partial.

(** The record tells of the ledger as it is when it gets frozen, if none of its transactions was waiting to be
    committed; up to the state root, which may be missing. *)
Theorem C76_recorded_partial root head g s b qs s' lid i t : proper g -> reach root head g s -> step root head s (Apply b qs) = Ok s' ->
  get lid (frozen_of (stack s)) = None -> get lid (frozen_of (stack s')) = Some i ->
  get lid (ledgers_of g (committed s)) = get lid (ledgers_of g (stack s)) ->
  get lid (ledgers_of g (stack s')) = Some t -> describes root head lid t i.
Proof.
  intros P R E N S Hc Ht. destruct (new_frozen root head g s b qs s' lid i P R E N S) as (Eb & Nc & _ & x & l & t' & Ec & Gt & D).
  destruct (inv_reach root head g s P R) as (_ & Eg). cbn [step] in E.
  destruct (apply_reqs _ b qs _) as [[ls fr]|] eqn:Ea; [|discriminate]. cbn [bind] in E.
  destruct (make_audit root head s ls b) as [a|]; [|discriminate]. cbn [bind] in E. injection E as <-. cbn [stack ledgers_of ledgers] in Ht.
  destruct (apply_reqs_spec _ _ _ _ _ Ea) as (_ & K & _). cbn [fst] in K.
  assert (lid <> b) as Nb by (intros ->; apply Nc; rewrite Eb; unfold core, CONFIG_LEDGER_ID; lia).
  specialize (K lid Nb). rewrite Eg in K. rewrite Ec in Hc. cbn [ledgers_of] in Hc. assert (t = t') by congruence. subst t'. exact D.
Qed.
Print Assumptions C76_recorded_partial.

(** Nodes that applied the same batches and committed more or fewer of them record the same root and size of a
    ledger that had the same transactions in both; not always the same state root (see the refutation). *)
Theorem C76_agree_partial root head g s1 s2 b qs s1' s2' lid t r1 st1 n1 r2 st2 n2 : proper g -> reach root head g s1 -> reach root head g s2 ->
  stack s1 = stack s2 -> step root head s1 (Apply b qs) = Ok s1' -> step root head s2 (Apply b qs) = Ok s2' ->
  get lid (frozen_of (stack s1)) = None ->
  get lid (ledgers_of g (committed s1)) = Some t -> get lid (ledgers_of g (committed s2)) = Some t ->
  get lid (frozen_of (stack s1')) = Some (r1, st1, n1) -> get lid (frozen_of (stack s2')) = Some (r2, st2, n2) ->
  n1 = n2 /\ (t <> [] -> r1 = r2).
Proof.
  intros P R1 R2 Es E1 E2 N C1 C2 G1 G2.
  destruct (new_frozen root head g s1 b qs s1' lid _ P R1 E1 N G1) as (_ & _ & _ & x1 & l1 & t1 & Ec1 & Gt1 & (A1 & B1 & _)).
  rewrite Es in N. destruct (new_frozen root head g s2 b qs s2' lid _ P R2 E2 N G2) as (_ & _ & _ & x2 & l2 & t2 & Ec2 & Gt2 & (A2 & B2 & _)).
  rewrite Ec1 in C1. rewrite Ec2 in C2. cbn [ledgers_of] in C1, C2. assert (t1 = t) by congruence. assert (t2 = t) by congruence. subst t1 t2.
  split; [congruence|]. intros Nt. destruct B1 as [B1|(_ & B1)]; [|contradiction]. destruct B2 as [B2|(_ & B2)]; [|contradiction]. congruence.
Qed.
Print Assumptions C76_agree_partial.

(** If batches are committed one by one, a node that catches up later records the same roots and sizes, of all
    frozen ledgers that have a root. *)
Theorem C76_replay_partial root head g bs s fz : proper g -> run root head (start g) (one_by_one bs) = Ok s ->
  (forall lids lid, In lids fz -> In lid lids -> get lid (frozen_of (stack s)) <> None) ->
  exists fr', replay (map audit (stack s)) fz [] = Ok fr' /\
    forall lid r st n, get lid (frozen_of (stack s)) = Some (Some r, st, n) -> (exists lids, In lids fz /\ In lid lids) ->
      exists st', get lid fr' = Some (Some r, st', n).
Proof. apply replayed. Qed.
Print Assumptions C76_replay_partial.

(** ** A case: ledgers 5 and 6 of plugins; 5 has a transaction at the start and gets one more *)
Definition rt (l : list bytes) : bytes := concat l ++ [N.of_nat (length l)].
Definition hd (lid : nat) (l : list bytes) : bytes := N.of_nat lid :: rt l.
Definition g0 : dict (list bytes) := [(0, [[1%N]]); (1, [[2%N]]); (2, []); (5, [[7%N]]); (6, [])].
Definition ends (os : list op) (f : node -> bool) : bool := match run rt hd (start g0) os with Ok s => f s | _ => false end.
Lemma g0_proper : proper g0.
Proof. unfold proper, g0. cbn. repeat constructor; cbn; intuition discriminate. Qed.
Lemma ends_spec os f : ends os f = true -> exists s, run rt hd (start g0) os = Ok s /\ reach rt hd g0 s /\ f s = true.
Proof. unfold ends. destruct (run rt hd (start g0) os) as [s|] eqn:E; [|discriminate]. intros H. exists s. split; [reflexivity|]. split; [exists os; exact E|exact H]. Qed.

Definition batches : list (nat * list request) :=
  [(1, [Txn [3%N]]); (5, [Txn [8%N]]); (1, [Txn [4%N]]); (2, [Freeze false [6]; Freeze true [1]; Freeze true [5]]); (5, [Txn [9%N]]); (1, [])].
Definition info_eqb (a b : info) : bool :=
  let '(r, st, n) := a in let '(r', st', n') := b in
  (match r, r' with Some x, Some y => bytes_eqb x y | None, None => true | _, _ => false end) &&
  (match st, st' with Some x, Some y => bytes_eqb x y | None, None => true | _, _ => false end) &&
  (match n, n' with Some x, Some y => x =? y | None, None => true | _, _ => false end).
Definition has (lid : nat) (i : info) (fr : dict info) : bool := match get lid fr with Some j => info_eqb j i | None => false end.
Lemma has_spec lid i fr : has lid i fr = true -> get lid fr = Some i.
Proof.
  unfold has. destruct (get lid fr) as [[[r st] n]|]; [|discriminate]. destruct i as [[r' st'] n']. unfold info_eqb. intros H.
  apply andb_true_iff in H. destruct H as [H H3]. apply andb_true_iff in H. destruct H as [H1 H2].
  assert (r = r') as ->. { destruct r, r'; try discriminate; [apply bytes_eqb_eq in H1; congruence|reflexivity]. }
  assert (st = st') as ->. { destruct st, st'; try discriminate; [apply bytes_eqb_eq in H2; congruence|reflexivity]. }
  assert (n = n') as ->. { destruct n, n'; try discriminate; [apply Nat.eqb_eq in H3; congruence|reflexivity]. }
  reflexivity.
Qed.

Definition c5 : list bytes := [[7%N]; [8%N]].
Example C76_ex : exists s, run rt hd (start g0) (one_by_one batches) = Ok s /\
  get 5 (frozen_of (stack s)) = Some (Some (rt c5), None, Some 2) /\
  get 5 (ledgers_of g0 (stack s)) = Some c5 /\ get 6 (frozen_of (stack s)) = None /\ get 1 (frozen_of (stack s)) = None /\
  get 1 (ledgers_of g0 (stack s)) = Some [[2%N]; [3%N]; [4%N]].
Proof.
  destruct (ends_spec (one_by_one batches) (fun s => has 5 (Some (rt c5), None, Some 2) (frozen_of (stack s)) &&
    (match get 5 (ledgers_of g0 (stack s)) with Some t => if list_eq_dec bytes_eq_dec t c5 then true else false | None => false end) &&
    (match get 6 (frozen_of (stack s)) with None => true | _ => false end) && (match get 1 (frozen_of (stack s)) with None => true | _ => false end) &&
    (match get 1 (ledgers_of g0 (stack s)) with Some t => if list_eq_dec bytes_eq_dec t [[2%N]; [3%N]; [4%N]] then true else false | None => false end)) ltac:(vm_compute; reflexivity)) as (s & E & _ & H).
  exists s. split; [exact E|]. apply andb_true_iff in H. destruct H as [H H5]. apply andb_true_iff in H. destruct H as [H H4].
  apply andb_true_iff in H. destruct H as [H H3]. apply andb_true_iff in H. destruct H as [H1 H2].
  split; [apply has_spec; exact H1|]. destruct (get 5 (ledgers_of g0 (stack s))) as [t|]; [|discriminate]. destruct (list_eq_dec bytes_eq_dec t c5) as [->|]; [|discriminate].
  split; [reflexivity|]. split; [destruct (get 6 _); [discriminate|reflexivity]|]. split; [destruct (get 1 (frozen_of _)); [discriminate|reflexivity]|].
  destruct (get 1 (ledgers_of g0 (stack s))) as [t|]; [|discriminate]. destruct (list_eq_dec bytes_eq_dec t [[2%N]; [3%N]; [4%N]]) as [->|]; [reflexivity|discriminate].
Qed.

(** *** Refutations *)
Definition pre : list op := [Apply 1 [Txn [3%N]]; Commit].

(** The record is one batch behind when a batch of the ledger is applied and not yet committed. *)
Theorem C76_stale_refuted : exists root head g s s' t r st n, proper g /\ reach root head g s /\
  step root head s (Apply CONFIG_LEDGER_ID [Freeze true [5]]) = Ok s' /\
  get 5 (ledgers_of g (stack s')) = Some t /\ get 5 (frozen_of (stack s')) = Some (r, st, Some n) /\ n < length t /\ r <> Some (root t).
Proof.
  destruct (ends_spec (pre ++ [Apply 5 [Txn [8%N]]]) (fun s => match step rt hd s (Apply CONFIG_LEDGER_ID [Freeze true [5]]) with
     | Ok s' => has 5 (Some (rt [[7%N]]), Some (hd 5 [[7%N]]), Some 1) (frozen_of (stack s')) &&
        (match get 5 (ledgers_of g0 (stack s')) with Some t => if list_eq_dec bytes_eq_dec t c5 then true else false | None => false end)
     | _ => false end) ltac:(vm_compute; reflexivity)) as (s & _ & R & H).
  destruct (step rt hd s (Apply CONFIG_LEDGER_ID [Freeze true [5]])) as [s'|] eqn:E; [|discriminate]. apply andb_true_iff in H. destruct H as [H1 H2]. apply has_spec in H1.
  destruct (get 5 (ledgers_of g0 (stack s'))) as [t|] eqn:Gt; [|discriminate]. destruct (list_eq_dec bytes_eq_dec t c5) as [->|]; [|discriminate].
  exists rt, hd, g0, s, s', c5, (Some (rt [[7%N]])), (Some (hd 5 [[7%N]])), 1. split; [exact g0_proper|]. split; [exact R|]. split; [exact E|]. split; [exact Gt|].
  split; [exact H1|]. split; [cbn; lia|vm_compute; discriminate].
Qed.
Print Assumptions C76_stale_refuted.

(** The state root is left out unless the last committed batch was of that very ledger, or the first of
    all. *)
Theorem C76_state_root_refuted : exists root head g bs s t r n, proper g /\ run root head (start g) (one_by_one bs) = Ok s /\
  get 5 (ledgers_of g (stack s)) = Some t /\ t <> [] /\ get 5 (frozen_of (stack s)) = Some (r, None, n).
Proof.
  destruct C76_ex as (s & E & G & C & _). exists rt, hd, g0, batches, s, c5, (Some (rt c5)), (Some 2).
  split; [exact g0_proper|]. split; [exact E|]. split; [exact C|]. split; [discriminate|exact G].
Qed.
Print Assumptions C76_state_root_refuted.

(** Two nodes that applied the same batches, of which one committed one more, make different config states of the
    same batch. *)
Theorem C76_timing_refuted : exists root head g s1 s2 s1' s2', proper g /\ reach root head g s1 /\ step root head s1 Commit = Ok s2 /\
  step root head s1 (Apply CONFIG_LEDGER_ID [Freeze true [5]]) = Ok s1' /\ step root head s2 (Apply CONFIG_LEDGER_ID [Freeze true [5]]) = Ok s2' /\
  get 5 (frozen_of (stack s1')) <> get 5 (frozen_of (stack s2')).
Proof.
  destruct (ends_spec (pre ++ [Apply 5 [Txn [8%N]]]) (fun s => match step rt hd s Commit with Ok s2 =>
     match step rt hd s (Apply CONFIG_LEDGER_ID [Freeze true [5]]), step rt hd s2 (Apply CONFIG_LEDGER_ID [Freeze true [5]]) with
     | Ok s1', Ok s2' => has 5 (Some (rt [[7%N]]), Some (hd 5 [[7%N]]), Some 1) (frozen_of (stack s1')) && has 5 (Some (rt c5), Some (hd 5 c5), Some 2) (frozen_of (stack s2'))
     | _, _ => false end | _ => false end) ltac:(vm_compute; reflexivity)) as (s & _ & R & H).
  destruct (step rt hd s Commit) as [s2|] eqn:E0; [|discriminate].
  destruct (step rt hd s (Apply CONFIG_LEDGER_ID [Freeze true [5]])) as [s1'|] eqn:E1; [|discriminate].
  destruct (step rt hd s2 (Apply CONFIG_LEDGER_ID [Freeze true [5]])) as [s2'|] eqn:E2; [|discriminate].
  apply andb_true_iff in H. destruct H as [H1 H2]. apply has_spec in H1, H2.
  exists rt, hd, g0, s, s2, s1', s2'. split; [exact g0_proper|]. split; [exact R|]. split; [exact E0|]. split; [exact E1|]. split; [exact E2|]. rewrite H1, H2. discriminate.
Qed.
Print Assumptions C76_timing_refuted.

(** Before the first batch is committed, a request to freeze raises an error in the application of its batch; where
    it is committed the same request is good. *)
Theorem C76_first_refuted : exists root head g s1 s2 s2', proper g /\ reach root head g s1 /\ step root head s1 Commit = Ok s2 /\
  step root head s1 (Apply CONFIG_LEDGER_ID [Freeze true [5]]) = Err TypeError /\ step root head s2 (Apply CONFIG_LEDGER_ID [Freeze true [5]]) = Ok s2' /\
  get 5 (frozen_of (stack s2')) <> None.
Proof.
  destruct (ends_spec [Apply 1 [Txn [3%N]]] (fun s => match step rt hd s Commit with Ok s2 =>
     match step rt hd s (Apply CONFIG_LEDGER_ID [Freeze true [5]]), step rt hd s2 (Apply CONFIG_LEDGER_ID [Freeze true [5]]) with
     | Err TypeError, Ok s2' => match get 5 (frozen_of (stack s2')) with Some _ => true | None => false end
     | _, _ => false end | _ => false end) ltac:(vm_compute; reflexivity)) as (s & _ & R & H).
  destruct (step rt hd s Commit) as [s2|] eqn:E0; [|discriminate].
  destruct (step rt hd s (Apply CONFIG_LEDGER_ID [Freeze true [5]])) as [|e] eqn:E1; [discriminate|].
  destruct e; try discriminate. destruct (step rt hd s2 (Apply CONFIG_LEDGER_ID [Freeze true [5]])) as [s2'|] eqn:E2; [|discriminate].
  exists rt, hd, g0, s, s2, s2'. split; [exact g0_proper|]. split; [exact R|]. split; [exact E0|]. split; [exact E1|]. split; [exact E2|].
  destruct (get 5 (frozen_of (stack s2'))); [discriminate|discriminate].
Qed.
Print Assumptions C76_first_refuted.

(** A node that catches up makes another config state than those that took part, although batches were committed
    one by one: without the state root; or, of an empty ledger, without the size. *)
Theorem C76_replay_refuted :
  (exists root head g bs s fr', proper g /\ run root head (start g) (one_by_one bs) = Ok s /\
     replay (map audit (stack s)) [[5]] [] = Ok fr' /\ get 5 (frozen_of (stack s)) <> None /\ get 5 fr' <> get 5 (frozen_of (stack s))) /\
  (exists root head g bs s fr' r st, proper g /\ run root head (start g) (one_by_one bs) = Ok s /\
     replay (map audit (stack s)) [[6]] [] = Ok fr' /\ get 6 (frozen_of (stack s)) = Some (r, st, Some 0) /\ get 6 fr' = Some (r, st, None)).
Proof.
  split.
  - destruct (ends_spec (one_by_one [(1, [Txn [3%N]]); (5, [Txn [8%N]]); (2, [Freeze true [5]]); (1, [Txn [4%N]])])
      (fun s => match replay (map audit (stack s)) [[5]] [] with Ok fr' => has 5 (Some (rt c5), Some (hd 5 c5), Some 2) (frozen_of (stack s)) && has 5 (Some (rt c5), None, Some 2) fr' | _ => false end)
      ltac:(vm_compute; reflexivity)) as (s & E & _ & H).
    destruct (replay (map audit (stack s)) [[5]] []) as [fr'|] eqn:Er; [|discriminate]. apply andb_true_iff in H. destruct H as [H1 H2]. apply has_spec in H1, H2.
    eexists _, _, _, _, s, fr'. split; [exact g0_proper|]. split; [exact E|]. split; [exact Er|]. rewrite H1, H2. split; discriminate.
  - destruct (ends_spec (one_by_one [(1, [Txn [3%N]]); (2, [Freeze true [6]]); (1, [Txn [4%N]])])
      (fun s => match replay (map audit (stack s)) [[6]] [] with Ok fr' => has 6 (None, None, Some 0) (frozen_of (stack s)) && has 6 (None, None, None) fr' | _ => false end)
      ltac:(vm_compute; reflexivity)) as (s & E & _ & H).
    destruct (replay (map audit (stack s)) [[6]] []) as [fr'|] eqn:Er; [|discriminate]. apply andb_true_iff in H. destruct H as [H1 H2]. apply has_spec in H1, H2.
    eexists _, _, _, _, s, fr', None, None. split; [exact g0_proper|]. split; [exact E|]. split; [exact Er|]. split; [exact H1|exact H2].
Qed.
Print Assumptions C76_replay_refuted.

(** A batch on a ledger that is frozen but not yet committed as such, all requests of which are refused, makes the
    audit ledger lose the frozen ledger for good. *)
Theorem C76_lost_refuted : exists root head g s x l, proper g /\ reach root head g s /\ stack s = x :: l /\ pending s = 0 /\
  get 5 (frozen x) <> None /\ get 5 (a_size (audit x)) = None /\ get 5 (a_root (audit x)) = None.
Proof.
  destruct (ends_spec (pre ++ [Apply 2 [Freeze true [5]]; Apply 5 [Txn [8%N]]; Commit; Commit; Apply 1 [Txn [4%N]]; Commit])
    (fun s => match stack s with x :: l => (pending s =? 0) && (match get 5 (frozen x), get 5 (a_size (audit x)), get 5 (a_root (audit x)) with Some _, None, None => true | _, _, _ => false end) | [] => false end)
    ltac:(vm_compute; reflexivity)) as (s & _ & R & H).
  destruct (stack s) as [|x l] eqn:Es; [discriminate|]. apply andb_true_iff in H. destruct H as [H1 H2]. apply Nat.eqb_eq in H1.
  exists rt, hd, g0, s, x, l. split; [exact g0_proper|]. split; [exact R|]. split; [exact Es|]. split; [exact H1|].
  destruct (get 5 (frozen x)), (get 5 (a_size (audit x))), (get 5 (a_root (audit x))); try discriminate. repeat split; discriminate.
Qed.
Print Assumptions C76_lost_refuted.

(** Two nodes that applied the same batches make different audit transactions of the next one, when an empty ledger
    is frozen and only one of them has committed that. *)
Theorem C76_audit_timing_refuted : exists root head g s1 s2 s1' s2' x1 x2 l1 l2, proper g /\ reach root head g s1 /\ step root head s1 Commit = Ok s2 /\
  step root head s1 (Apply 1 [Txn [4%N]]) = Ok s1' /\ step root head s2 (Apply 1 [Txn [4%N]]) = Ok s2' /\
  stack s1' = x1 :: l1 /\ stack s2' = x2 :: l2 /\ get 6 (a_size (audit x1)) = Some 0 /\ get 6 (a_size (audit x2)) = None.
Proof.
  destruct (ends_spec (pre ++ [Apply 2 [Freeze true [6]]]) (fun s => match step rt hd s Commit with Ok s2 =>
     match step rt hd s (Apply 1 [Txn [4%N]]), step rt hd s2 (Apply 1 [Txn [4%N]]) with
     | Ok s1', Ok s2' => match stack s1', stack s2' with x1 :: _, x2 :: _ => match get 6 (a_size (audit x1)), get 6 (a_size (audit x2)) with Some 0, None => true | _, _ => false end | _, _ => false end
     | _, _ => false end | _ => false end) ltac:(vm_compute; reflexivity)) as (s & _ & R & H).
  destruct (step rt hd s Commit) as [s2|] eqn:E0; [|discriminate].
  destruct (step rt hd s (Apply 1 [Txn [4%N]])) as [s1'|] eqn:E1; [|discriminate].
  destruct (step rt hd s2 (Apply 1 [Txn [4%N]])) as [s2'|] eqn:E2; [|discriminate].
  destruct (stack s1') as [|x1 l1] eqn:F1; [discriminate|]. destruct (stack s2') as [|x2 l2] eqn:F2; [discriminate|].
  exists rt, hd, g0, s, s2, s1', s2', x1, x2, l1, l2. split; [exact g0_proper|]. split; [exact R|]. split; [exact E0|]. split; [exact E1|]. split; [exact E2|].
  split; [exact F1|]. split; [exact F2|]. destruct (get 6 (a_size (audit x1))) as [[|n]|], (get 6 (a_size (audit x2))); try discriminate. split; reflexivity.
Qed.
Print Assumptions C76_audit_timing_refuted.
