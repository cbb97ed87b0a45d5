(** C60: a request is written at most once, and once written it is found again.
    C61: executing an ordered batch writes exactly the transactions applied for it, and never fails. *)
From Coq Require Import List Arith Bool Lia.
From Verif Require Import Exec_Model Exec_Spec Exec_Proofs Exec_Proofs2.
Import ListNotations.

Section C60.
  Variable lid_of id_of : nat -> nat.
  Variable ok : (nat -> list txn) -> req -> nat -> bool.

  (** Whatever the PrePrepares, as long as the requests have non-zero numbers: no payload is at two places
      of the ledgers, written or pending. *)
  Theorem C60_once_partial : forall es n, fits_once lid_of id_of ok init es -> run lid_of id_of ok init es = Some n ->
    forall k1 i1 x1 k2 i2 x2, nth_error (written n k1 ++ l_unc (n_l n k1)) i1 = Some x1 -> nth_error (written n k2 ++ l_unc (n_l n k2)) i2 = Some x2 ->
      r_pay (x_req x1) = r_pay (x_req x2) -> k1 = k2 /\ i1 = i2.
  Proof.
    intros es n F R k1 i1 x1 k2 i2 x2 X1 X2 E. destruct (run_InvO lid_of id_of ok es init n (InvO_init lid_of id_of) F R) as [[L ND] _].
    destruct (L k1 x1 (nth_error_In _ _ X1)) as [L1 _]. destruct (L k2 x2 (nth_error_In _ _ X2)) as [L2 _]. unfold pay in L1, L2. rewrite E, L2 in L1. subst k2. split; [reflexivity|].
    apply (proj1 (NoDup_nth_error (pays (both n k1))) (ND k1)).
    - unfold pays. rewrite map_length. apply nth_error_Some. unfold both. unfold written in X1. congruence.
    - unfold pays. rewrite !nth_error_map. unfold both. unfold written in X1, X2. rewrite X1, X2. cbn. unfold pay. congruence.
  Qed.

  (** Every written request is found with its ledger, its place and its transaction. *)
  Theorem C60_reply_partial : forall es n, fits_once lid_of id_of ok init es -> run lid_of id_of ok init es = Some n ->
    (forall k i x, nth_error (written n k) i = Some x -> reply n (x_req x) = Written k (S i) x) /\
    (forall r, reply n r = NotWritten <-> forall k x, In x (written n k) -> r_pay (x_req x) <> r_pay r) /\
    (forall r k x, In x (written n k) -> r_pay (x_req x) = r_pay r -> (forall k' y, In y (written n k') -> r_full (x_req y) <> r_full r) ->
       reply n r = AlreadyWithOtherSignatures) /\
    (forall r, reply n r <> Lost).
  Proof.
    intros es n F R. destruct (run_InvO lid_of id_of ok es init n (InvO_init lid_of id_of) F R) as [_ (I1 & I2 & I3)]. split; [|split; [|split]].
    - intros k i x X. destruct (I1 k i x X) as [G1 G2]. unfold reply. unfold pay, ful in *. rewrite G1. destruct (get (r_full (x_req x)) (n_full n)) as [v|]; [|congruence].
      replace (S i - 1) with i by lia. unfold written in X. rewrite X. reflexivity.
    - intros r. split.
      + intros Q k x X E. destruct (In_nth_error _ _ X) as (i & N). destruct (I1 k i x N) as [G1 _]. unfold reply in Q. unfold pay in G1. rewrite <- E, G1 in Q.
        destruct (get (r_full r) (n_full n)); [|discriminate]. destruct (nth_error (l_com (n_l n k)) (S i - 1)); discriminate.
      + intros Q. unfold reply. destruct (get (r_pay r) (n_db n)) as [[k s]|] eqn:G; [|reflexivity]. destruct (I2 _ _ _ G) as (i & x & _ & N & E).
        exfalso. exact (Q k x (nth_error_In _ _ N) E).
    - intros r k x X E NF. destruct (In_nth_error _ _ X) as (i & N). destruct (I1 k i x N) as [G1 _]. unfold reply. unfold pay in G1. rewrite <- E, G1.
      destruct (get (r_full r) (n_full n)) as [v|] eqn:G; [|reflexivity]. destruct (I3 (r_full r)) as (k' & y & Y & E'); [congruence|]. exfalso. exact (NF k' y Y E').
    - intros r Q. unfold reply in Q. destruct (get (r_pay r) (n_db n)) as [[k s]|] eqn:G; [|discriminate]. destruct (get (r_full r) (n_full n)); [|discriminate].
      destruct (I2 _ _ _ G) as (i & x & -> & N & _). replace (S i - 1) with i in Q by lia. rewrite N in Q. discriminate.
  Qed.

  Lemma suspicious : forall rs n i t m inv s r, In r rs -> (is_known n r = true \/ is_pending lid_of n r = true) -> apply_reqs lid_of ok n i rs t = (m, inv, s) -> s = true.
  Proof.
    induction rs as [|a rs IH]; intros n i t m inv s r R K E; [destruct R|]. cbn [apply_reqs] in E. destruct (process_req lid_of ok n a t) as [n'| |] eqn:P.
    - destruct (process_applied lid_of ok _ _ _ _ P) as (-> & A & B & _). destruct R as [->|R]; [destruct K; congruence|]. apply (IH _ _ _ _ _ _ r R) in E; [exact E|].
      destruct K as [K|K]; [left; exact K|right]. unfold is_pending in *. unfold apply_req, upd; cbn. destruct (lid_of (r_pay r) =? lid_of (r_pay a)) eqn:EE; [|exact K]. cbn.
      apply Nat.eqb_eq in EE. rewrite existsb_app. rewrite <- EE. rewrite K. reflexivity.
    - destruct (apply_reqs lid_of ok n (S i) rs t) as [[m0 inv0] s0] eqn:E0. injection E as <- <- <-. destruct R as [->|R]; [|exact (IH _ _ _ _ _ _ r R K E0)].
      unfold process_req in P. destruct (is_known n r), (is_pending lid_of n r), K; try discriminate.
    - destruct (apply_reqs lid_of ok n (S i) rs t) as [[m0 inv0] s0] eqn:E0. injection E as <- <- <-. reflexivity.
  Qed.
  (** A PrePrepare with a request that is written or pending already is never accepted. *)
  Theorem C60_refused_partial : forall es n, fits_once lid_of id_of ok init es -> run lid_of id_of ok init es = Some n ->
    forall p r m b, In r (p_reqs p) -> somewhere n (r_pay r) -> process_pp lid_of ok n p = Some (m, b) -> b = false.
  Proof.
    intros es n F R p r m b IR SW P. pose proof (run_InvO lid_of id_of ok es init n (InvO_init lid_of id_of) F R) as I.
    assert (K : is_known n r = true \/ is_pending lid_of n r = true).
    { destruct (is_known n r) eqn:A; [left; reflexivity|]. destruct (is_pending lid_of n r) eqn:B; [right; reflexivity|]. exfalso. exact (not_somewhere lid_of id_of n r I A B SW). }
    unfold process_pp in P. destruct (apply_reqs lid_of ok n 0 (p_reqs p) (p_time p)) as [[g inv] s] eqn:E. rewrite (suspicious _ _ _ _ _ _ _ r IR K E) in P. cbn [negb andb] in P. destruct (negb (p_whole p)); [injection P as _ <-; reflexivity|].
    destruct (revert g (p_lid p) (l_head (n_l n (p_lid p))) (length (p_reqs p) - length inv)); [injection P as _ <-; reflexivity | discriminate].
  Qed.
End C60.

(** ** A concrete history: two ledgers, a catch-up, a batch that is ordered twice over *)
Definition lid2 (p : nat) : nat := if p <? 10 then 0 else 1.
Definition idp (p : nat) : nat := p.
Definition ok7 (_ : nat -> list txn) (r : req) (_ : nat) : bool := negb (r_pay r =? 7).
Definition r1 := mkR 1 101. Definition r2 := mkR 2 102. Definition r7 := mkR 7 107. Definition r11 := mkR 11 111. Definition r12 := mkR 12 112.
Definition hist60 : list event := [ECaught 0 (mkX r2 3); ECreate 0 [r1; r7; r2; r11] 4; ECreate 1 [r11] 5; EOrder; EExec; EOrder; EExec; ERestart; ECreate 0 [r1; r2] 6].
Example C60_met : fits_once lid2 idp ok7 init hist60.
Proof.
  assert (ND : forall rs, Forall (fun r => idp (r_pay r) <> 0) rs -> numbered idp rs) by (intros rs A r R; rewrite Forall_forall in A; exact (A r R)).
  cbn -[nth_error]. repeat split; try (apply ND; repeat constructor; discriminate); try discriminate.
  intros (k & x & [] & _).
Qed.
Example C60_case : exists n, run lid2 idp ok7 init hist60 = Some n /\
  written n 0 = [mkX r2 3; mkX r1 4] /\ written n 1 = [mkX r11 5] /\ reply n r1 = Written 0 2 (mkX r1 4) /\ reply n (mkR 1 201) = AlreadyWithOtherSignatures /\ reply n r7 = NotWritten.
Proof. eexists. split; [vm_compute; reflexivity|]. vm_compute. repeat split. Qed.

(** ** Refutations of C60 *)
Definition id0 (p : nat) : nat := if p =? 2 then 0 else p.
Definition all_ok (_ : nat -> list txn) (_ : req) (_ : nat) : bool := true.
(** A request with number 0 in the batch: another request of the same batch is not indexed, the client is
    told it is not written, and it is written again. All primaries are correct. *)
Theorem C60_zero_refuted : exists es es' n n', fits lid2 id0 all_ok init (es ++ es') /\ id0 (r_pay r1) <> 0 /\
  run lid2 id0 all_ok init es = Some n /\ In (mkX r1 4) (written n 0) /\ reply n r1 = NotWritten /\
  run lid2 id0 all_ok init (es ++ es') = Some n' /\ written n' 0 = [mkX r1 4; mkX r2 4; mkX r1 5].
Proof.
  exists [ECreate 0 [r1; r2] 4; EOrder; EExec], [ECreate 0 [r1] 5; EOrder; EExec]. eexists. eexists.
  split; [vm_compute; repeat split|]. split; [discriminate|]. split; [vm_compute; reflexivity|]. split; [vm_compute; auto|]. split; [reflexivity|].
  split; [vm_compute; reflexivity | reflexivity].
Qed.
(** Two correct nodes with the same ledgers, one of which caught up, disagree on a batch. *)
Theorem C60_disagree_refuted : exists es1 es2 n1 n2 p m1 m2, run lid2 id0 all_ok init es1 = Some n1 /\ run lid2 id0 all_ok init es2 = Some n2 /\
  fits lid2 id0 all_ok init es1 /\ fits lid2 id0 all_ok init es2 /\ (forall k, n_l n1 k = n_l n2 k) /\ n_app n1 = n_app n2 /\
  correct lid2 all_ok p /\ process_pp lid2 all_ok n1 p = Some (m1, true) /\ process_pp lid2 all_ok n2 p = Some (m2, false).
Proof.
  exists [ECreate 0 [r1; r2] 4; EOrder; EExec], [ECaught 0 (mkX r1 4); ECaught 0 (mkX r2 4)]. eexists. eexists.
  exists (mkPP 0 [r1] [] 5 [mkX r1 4; mkX r2 4; mkX r1 5] [mkX r1 4; mkX r2 4; mkX r1 5] true). eexists. eexists.
  split; [vm_compute; reflexivity|]. split; [vm_compute; reflexivity|]. split; [vm_compute; repeat split|]. split; [vm_compute; repeat split|].
  split; [intros [|k]; reflexivity|]. split; [reflexivity|]. split.
  - exists (mkN (fun k => if k =? 0 then mkL [mkX r1 4; mkX r2 4] [] [mkX r1 4; mkX r2 4] [mkX r1 4; mkX r2 4] else mkL [] [] [] []) [] [] []), [r1]. vm_compute. reflexivity.
  - split; vm_compute; reflexivity.
Qed.

Section C61.
  Variable lid_of id_of : nat -> nat.
  Variable ok : (nat -> list txn) -> req -> nat -> bool.

  (** With correct primaries no event raises an exception. *)
  Theorem C61_no_exception_partial : forall es, fits lid_of id_of ok init es -> exists n, run lid_of id_of ok init es = Some n.
  Proof. intros es F. destruct (run_Inv lid_of id_of ok es init (Inv_init) F) as (n & R & _). exists n. exact R. Qed.

  (** The next ordered batch is executed, and writes the requests reported as ordered, in their order, to
      the ledger of the batch: its roots become those of the PrePrepare. *)
  Theorem C61_exec_partial : forall es n b bs, fits lid_of id_of ok init es -> run lid_of id_of ok init es = Some n -> n_app n = b :: bs -> b_ord b = true ->
    exists m, step lid_of id_of ok n EExec = Some m /\ n_app m = bs /\
      written m (p_lid (b_pp b)) = written n (p_lid (b_pp b)) ++ stamped (valid_reqs (b_pp b)) (p_time (b_pp b)) /\
      written m (p_lid (b_pp b)) = p_troot (b_pp b) /\ l_chead (n_l m (p_lid (b_pp b))) = p_sroot (b_pp b) /\
      (forall k, k <> p_lid (b_pp b) -> n_l m k = n_l n k).
  Proof.
    intros es n b bs F R A O. destruct (run_Inv lid_of id_of ok es init (Inv_init) F) as (n' & R' & [S _]). rewrite R in R'. injection R' as <-. rewrite A in S.
    destruct (exec_spec id_of n b bs S) as (m & M & _ & C & T & SR & K & SM). exists (with_app m bs). cbn [step]. rewrite A, O, M. split; [reflexivity|].
    split; [reflexivity|]. split; [exact C|]. split; [unfold written; cbn; congruence|]. split; [|exact K].
    destruct (SM (p_lid (b_pp b))) as (H1 & _). cbn. rewrite H1. congruence.
  Qed.
  (** Nodes that execute the same PrePrepare have the same ledger then, whatever they did before. *)
  Theorem C61_agree_partial : forall es1 es2 n1 n2 b1 b2 bs1 bs2 m1 m2,
    fits lid_of id_of ok init es1 -> fits lid_of id_of ok init es2 -> run lid_of id_of ok init es1 = Some n1 -> run lid_of id_of ok init es2 = Some n2 ->
    n_app n1 = b1 :: bs1 -> n_app n2 = b2 :: bs2 -> b_ord b1 = true -> b_ord b2 = true -> b_pp b1 = b_pp b2 ->
    step lid_of id_of ok n1 EExec = Some m1 -> step lid_of id_of ok n2 EExec = Some m2 -> written m1 (p_lid (b_pp b1)) = written m2 (p_lid (b_pp b1)).
  Proof.
    intros es1 es2 n1 n2 b1 b2 bs1 bs2 m1 m2 F1 F2 R1 R2 A1 A2 O1 O2 E S1 S2.
    destruct (C61_exec_partial es1 n1 b1 bs1 F1 R1 A1 O1) as (x1 & X1 & _ & _ & T1 & _). destruct (C61_exec_partial es2 n2 b2 bs2 F2 R2 A2 O2) as (x2 & X2 & _ & _ & T2 & _).
    rewrite S1 in X1. rewrite S2 in X2. injection X1 as <-. injection X2 as <-. rewrite T1, E, T2. reflexivity.
  Qed.
  (** The committed state is always that of the written transactions, the uncommitted one that of the
      written and the pending ones. *)
  Theorem C61_state_partial : forall es n, fits lid_of id_of ok init es -> run lid_of id_of ok init es = Some n ->
    forall k, l_chead (n_l n k) = written n k /\ l_head (n_l n k) = written n k ++ l_unc (n_l n k).
  Proof.
    intros es n F R k. destruct (run_Inv lid_of id_of ok es init (Inv_init) F) as (n' & R' & [S _]). rewrite R in R'. injection R' as <-. destruct (S k) as (A & B & _). auto.
  Qed.
  (** A view change or catch-up leaves nothing pending but the batches ordered already, and nothing at all
      if there are none; what is written stays. *)
  Theorem C61_revert_partial : forall es n, fits lid_of id_of ok init es -> run lid_of id_of ok init es = Some n ->
    exists m, step lid_of id_of ok n ERevert = Some m /\ n_app m = filter b_ord (n_app n) /\ (forall k, written m k = written n k) /\
      (forall k, l_unc (n_l m k) = flat_map (fun b => if p_lid (b_pp b) =? k then stamped (valid_reqs (b_pp b)) (p_time (b_pp b)) else []) (filter b_ord (n_app n))).
  Proof.
    intros es n F R. destruct (run_Inv lid_of id_of ok es init (Inv_init) F) as (n' & R' & [S (o & u & E & O & U)]). rewrite R in R'. injection R' as <-. cbn [step].
    rewrite E in S |- *. destruct (filter_split o u O U) as [-> ->]. destruct (revert_all_spec u n o S) as (m & M & SM & C & _). rewrite M. eexists. split; [reflexivity|].
    cbn. split; [reflexivity|]. split; [exact C|]. intros k. destruct (SM k) as (_ & H & CH). clear - H CH. set (base := l_com (n_l m k)) in *. rewrite H in CH. clear H.
    assert (G : forall bs c f, chain k c bs f -> f = c ++ flat_map (fun b => if p_lid (b_pp b) =? k then stamped (valid_reqs (b_pp b)) (p_time (b_pp b)) else []) bs).
    { induction bs as [|b bs IH]; intros c f Q; cbn in Q |- *; [rewrite app_nil_r; exact Q|]. destruct (p_lid (b_pp b) =? k); [|exact (IH _ _ Q)].
      destruct Q as (_ & _ & _ & _ & Q). rewrite (IH _ _ Q). unfold body. rewrite app_assoc. reflexivity. }
    apply G in CH. apply app_inv_head in CH. exact CH.
  Qed.
  (** A PrePrepare whose requests are all of its ledger never raises an exception, and leaves no trace if
      it is refused, whoever sent it and in any state of the node. *)
  Theorem C61_rejected_partial : forall n p, (forall r, In r (p_reqs p) -> lid_of (r_pay r) = p_lid p) -> p_whole p = true -> exists m b, process_pp lid_of ok n p = Some (m, b) /\
    (b = false -> (forall k, n_l m k = n_l n k) /\ n_db m = n_db n /\ n_full m = n_full n /\ n_app m = n_app n).
  Proof. intros n p A W. destruct (process_spec lid_of ok n p A W) as (m & b & P & Q & _). exists m, b. auto. Qed.
End C61.

Definition pp0 := snd (create lid2 ok7 init 0 [r1; r7; r2] 4).
Definition hist61 : list event := [EPrePrepare pp0; ECreate 1 [r11] 5; ERevert; EPrePrepare pp0; EPrePrepare (snd (create lid2 ok7 init 1 [r12] 5)); EOrder; ERevert; EExec; EStashed (snd (create lid2 ok7 init 1 [r12] 5)); ECaught 1 (mkX r11 6); ECreate 1 [] 7; EOrder].
Example C61_met : fits lid2 idp ok7 init hist61.
Proof.
  assert (A : correct lid2 ok7 pp0) by (exists init, [r1; r7; r2]; reflexivity).
  assert (B : correct lid2 ok7 (snd (create lid2 ok7 init 1 [r12] 5))) by (exists init, [r12]; reflexivity).
  cbn [fits hist61 fit]. split; [exact A|]. vm_compute step. split; [exact Logic.I|]. vm_compute step. split; [exact Logic.I|]. vm_compute step. split; [exact A|].
  vm_compute step. split; [exact B|]. vm_compute step. split; [exact Logic.I|]. vm_compute step. split; [exact Logic.I|]. vm_compute step. split; [exact Logic.I|]. vm_compute step.
  split; [intros _; split; [exact B|]; split; reflexivity|]. vm_compute step. split; [reflexivity|]. vm_compute step. split; [exact Logic.I|]. vm_compute step. split; exact Logic.I.
Qed.
Example C61_case : exists n b, run lid2 idp ok7 init hist61 = Some n /\ written n 0 = [mkX r1 4; mkX r2 4] /\ written n 1 = [mkX r12 5; mkX r11 6] /\ n_app n = [b] /\ b_ord b = true.
Proof. eexists. eexists. split; [vm_compute; reflexivity|]. vm_compute. repeat split. Qed.

(** ** Refutations of C61: a faulty primary, all other events being correct ones *)
(** A batch for ledger 0 with a request of ledger 1 is accepted, ordered and executed. The transaction left
    over in ledger 1 stays through a view change, and the next batch of ledger 1, made by a correct
    primary, raises an exception when it is executed: on every node. *)
Theorem C61_mixed_refuted : exists p n es, process_pp lid2 all_ok init p = Some (n, true) /\ others_correct lid2 all_ok p es /\ run lid2 idp all_ok init es = None.
Proof.
  exists (mkPP 0 [r11] [] 4 [] [] true). eexists. exists [EPrePrepare (mkPP 0 [r11] [] 4 [] [] true); EOrder; EExec; ERevert; ECreate 1 [r12] 5; EOrder; EExec].
  split; [vm_compute; reflexivity|]. split; [|vm_compute; reflexivity].
  intros e [<-|[<-|[<-|[<-|[<-|[<-|[<-|[]]]]]]]]; try exact Logic.I. left. reflexivity.
Qed.
(** The same PrePrepare with wrong roots is not refused: an exception is raised instead. *)
Theorem C61_mixed_rejected_refuted : exists p, process_pp lid2 all_ok init p = None.
Proof. exists (mkPP 0 [r11] [] 4 [] [mkX r1 1] true). vm_compute. reflexivity. Qed.
(** A PrePrepare not marked as final is refused but not reverted: it leaves its transactions behind, also
    after a view change, and the next correct batch raises an exception when executed. *)
Theorem C61_not_final_refuted : exists p n es m, process_pp lid2 all_ok init p = Some (n, false) /\ (forall r, In r (p_reqs p) -> lid2 (r_pay r) = p_lid p) /\
  run lid2 idp all_ok init [EPrePrepare p; ERevert] = Some m /\ l_unc (n_l m 0) <> [] /\
  others_correct lid2 all_ok p es /\ run lid2 idp all_ok init es = None.
Proof.
  exists (mkPP 0 [r1] [] 4 [] [] false). eexists. exists [EPrePrepare (mkPP 0 [r1] [] 4 [] [] false); ERevert; ECreate 0 [r2] 5; EOrder; EExec]. eexists.
  split; [vm_compute; reflexivity|]. split; [intros r [<-|[]]; reflexivity|]. split; [vm_compute; reflexivity|]. split; [discriminate|]. split; [|vm_compute; reflexivity].
  intros e [<-|[<-|[<-|[<-|[<-|[]]]]]]; try exact Logic.I. left. reflexivity.
Qed.
(** Only the number of discarded requests is compared. If one is named twice, executing the batch raises
    an exception as soon as another batch follows. *)
Theorem C61_discarded_refuted : exists ok p n es, process_pp lid2 ok init p = Some (n, true) /\ others_correct lid2 ok p es /\ run lid2 idp ok init es = None.
Proof.
  exists (fun _ r _ => 2 <? r_pay r), (mkPP 0 [r1; r2] [0; 0] 4 [] [] true). eexists. exists [EPrePrepare (mkPP 0 [r1; r2] [0; 0] 4 [] [] true); ECreate 0 [r7] 5; EOrder; EExec].
  split; [vm_compute; reflexivity|]. split; [|vm_compute; reflexivity].
  intros e [<-|[<-|[<-|[<-|[]]]]]; try exact Logic.I. left. reflexivity.
Qed.
(** If other requests are named than those the nodes discard, the request reported as ordered is not the
    one that is written. *)
Theorem C61_swapped_refuted : exists ok p n m, process_pp lid2 ok init p = Some (n, true) /\ run lid2 idp ok init [EPrePrepare p; EOrder; EExec] = Some m /\
  valid_reqs p = [r1] /\ written m 0 = [mkX r2 4].
Proof.
  exists (fun _ r _ => negb (r_pay r =? 1)), (mkPP 0 [r1; r2] [1] 4 [mkX r2 4] [mkX r2 4] true). eexists. eexists.
  split; [vm_compute; reflexivity|]. split; [vm_compute; reflexivity|]. split; reflexivity.
Qed.

Print Assumptions C60_once_partial.
Print Assumptions C60_reply_partial.
Print Assumptions C60_refused_partial.
Print Assumptions C60_zero_refuted.
Print Assumptions C60_disagree_refuted.
Print Assumptions C61_no_exception_partial.
Print Assumptions C61_exec_partial.
Print Assumptions C61_agree_partial.
Print Assumptions C61_state_partial.
Print Assumptions C61_revert_partial.
Print Assumptions C61_rejected_partial.
Print Assumptions C61_mixed_refuted.
Print Assumptions C61_mixed_rejected_refuted.
Print Assumptions C61_not_final_refuted.
Print Assumptions C61_discarded_refuted.
Print Assumptions C61_swapped_refuted.
