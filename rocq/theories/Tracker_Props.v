(** Property C40: the tracker of uncommitted batches, alone and together with a ledger. *)
From Coq Require Import List Arith ZArith NArith Bool Lia.
From Verif Require Import Base Merkle_Spec Merkle_Model Merkle_Proofs Merkle_Props Ledger_Model Ledger_Spec
  Ledger_Proofs Ledger_Proofs2 Ledger_Props Tracker_Model Tracker_Spec.
Import ListNotations.
Local Open Scope res_scope.

(** ** The tracker alone *)
Section Tracker.
  Context {R : Type}.

  Inductive tracker_op := TApply (state_root txn_root : R) (ledger_size : Z) | TCommit | TReject.

  (** One operation with what was said and answered. *)
  Definition tracker_do (t : tracker R) (o : tracker_op) : res (call R * tracker R) :=
    match o with
    | TApply h r n => t' <- apply_batch t h r n ;; Ok (Apply h r n, t')
    | TCommit => '((h, r, n), t') <- commit_batch t ;; Ok (Commit h r n, t')
    | TReject => '((h, r, n), t') <- reject_batch t ;; Ok (Reject h r n, t')
    end.
  Fixpoint tracker_run (t : tracker R) (os : list tracker_op) : res (list (call R) * tracker R) :=
    match os with
    | [] => Ok ([], t)
    | o :: os' =>
      '(c, t1) <- tracker_do t o ;; '(cs, t2) <- tracker_run t1 os' ;; Ok (c :: cs, t2)
    end.

  Fixpoint sums (n : Z) (bs : list (batch R)) : list (R * R * Z) :=
    match bs with
    | [] => []
    | b :: bs' => (b_state_root b, b_txn_root b, (n + b_added b)%Z) :: sums (n + b_added b)%Z bs'
    end.
  Definition Rep (t : tracker R) (p : pool R) : Prop :=
    t = mkTracker (c_state_root p, c_txn_root p, c_size p) (sums (c_size p) (batches p)).

  Lemma sums_app n bs b : sums n (bs ++ [b]) =
    sums n bs ++ [(b_state_root b, b_txn_root b, (fold_left (fun n b => n + b_added b) bs n + b_added b)%Z)].
  Proof. revert n. induction bs as [|a bs IH]; intros n; simpl; auto. rewrite IH. reflexivity. Qed.
  Lemma sums_length n bs : length (sums n bs) = length bs.
  Proof. revert n. induction bs; intros; simpl; auto. Qed.

  Lemma tracker_sim t p o c t' : Rep t p -> tracker_do t o = Ok (c, t') ->
    exists p', pool_step p c p' /\ Rep t' p'.
  Proof.
    destruct p as [sr tr n bs]. unfold Rep. cbn [c_state_root c_txn_root c_size batches]. intros -> E.
    destruct o as [h r m| |]; cbn [tracker_do] in E.
    - unfold apply_batch in E. destruct (Z.ltb_spec m 0); [discriminate|]. inversion E; subst.
      eexists. split; [constructor; lia|]. cbn. rewrite sums_app. do 4 f_equal. cbn [b_added b_state_root b_txn_root].
      f_equal. unfold total. cbn. lia.
    - destruct bs as [|b bs]; [discriminate|]. unfold commit_batch in E. cbn [un_committed last_committed sums snd bind] in E.
      inversion E; subst. replace (n + b_added b - n)%Z with (b_added b) by lia.
      eexists. split; [constructor|]. reflexivity.
    - unfold reject_batch in E. cbn [un_committed last_committed] in E.
      destruct bs as [|b bs _] using rev_ind; [discriminate|].
      rewrite sums_app, rev_app_distr in E. cbn [rev app] in E.
      destruct bs as [|b1 bs _] using rev_ind.
      + cbn [sums rev bind app fold_left] in E. inversion E; subst.
        replace (n + b_added b - n)%Z with (b_added b) by lia.
        eexists. split; [constructor|]. reflexivity.
      + rewrite sums_app, rev_app_distr in E. cbn [rev app bind] in E. rewrite rev_involutive in E.
        inversion E; subst. rewrite fold_left_app. cbn [fold_left].
        match goal with |- context [Reject _ _ ?z] => replace z with (b_added b) by lia end.
        eexists. split; [rewrite <- app_assoc; cbn [app]; constructor|]. cbn. rewrite sums_app. reflexivity.
  Qed.

  (** Whatever is applied, committed and rejected, in any order, every answer is the one of the
      pool of batches. *)
  Theorem C40_tracker : forall os h r n cs t,
    tracker_run (new_tracker h r n) os = Ok (cs, t) ->
    exists p, pool_steps (mkPool h r n []) cs p /\
      last_committed t = (c_state_root p, c_txn_root p, c_size p) /\
      length (un_committed t) = length (batches p) /\
      last (map snd (un_committed t)) (c_size p) = total p.
  Proof.
    assert (G : forall os t p cs t', Rep t p -> tracker_run t os = Ok (cs, t') ->
       exists p', pool_steps p cs p' /\ Rep t' p').
    { induction os as [|o os IH]; intros t p cs t' RP E.
      - inversion E; subst. exists p. split; [constructor|auto].
      - cbn [tracker_run] in E. destruct (tracker_do t o) as [[c t1]|] eqn:E1; [|discriminate]. cbn [bind] in E.
        destruct (tracker_run t1 os) as [[cs' t2]|] eqn:E2; [|discriminate]. cbn [bind] in E. inversion E; subst.
        destruct (tracker_sim _ _ _ _ _ RP E1) as (p1 & S1 & R1).
        destruct (IH _ _ _ _ R1 E2) as (p2 & S2 & R2). exists p2. split; [econstructor; eauto|auto]. }
    intros os h r n cs t E. destruct (G os (new_tracker h r n) (mkPool h r n []) cs t) as (p & S1 & R1); auto.
    { reflexivity. }
    exists p. split; auto. rewrite R1. cbn [last_committed un_committed]. rewrite sums_length.
    split; [reflexivity|]. split; [reflexivity|]. unfold total.
    destruct (batches p) as [|b bs _] using rev_ind; [reflexivity|].
    rewrite sums_app, map_app, fold_left_app. cbn [map snd fold_left]. apply last_last.
  Qed.

  (** Calls fail exactly when there is no batch to commit or reject, or a size is negative. *)
  Theorem C40_tracker_errors : forall t : tracker R,
    (forall h r n, (exists t', apply_batch t h r n = Ok t') <-> (0 <= n)%Z) /\
    (un_committed t = [] -> commit_batch t = Err PlenumValueError /\ reject_batch t = Err LogicError) /\
    (un_committed t <> [] -> (exists x, commit_batch t = Ok x) /\ (exists x, reject_batch t = Ok x)).
  Proof.
    intros [lc u]. split; [|split].
    - intros h r n. unfold apply_batch. destruct (Z.ltb_spec n 0); split; intros Q; try lia; eauto.
      destruct Q; discriminate.
    - cbn. intros ->. auto.
    - cbn [un_committed]. intros NE. split.
      + unfold commit_batch. cbn. destruct u as [|[[h r] m] u]; [congruence|eauto].
      + unfold reject_batch. cbn [un_committed last_committed].
        destruct u as [|[[h r] m] u _] using rev_ind; [congruence|]. rewrite rev_app_distr. cbn [rev app].
        destruct (rev u) as [|[[h1 r1] m1] u1]; [destruct lc as [[a b] c]|]; eauto.
  Qed.
End Tracker.

Example ex_C40_tracker :
  tracker_run (new_tracker 10 20 5)%Z
    [TApply 11 21 7; TApply 12 22 8; TApply 13 23 12; TReject; TCommit; TReject]%Z
  = Ok ([Apply 11 21 7; Apply 12 22 8; Apply 13 23 12; Reject 12 22 4; Commit 11 21 2; Reject 11 21 1]%Z,
        mkTracker (11, 21, 7)%Z []).
Proof. reflexivity. Qed.

Lemma reject_last {R} lc (u : list (R * R * Z)) x :
  reject_batch (mkTracker lc (u ++ [x]))
  = Ok ((fst (last u lc), (snd x - snd (last u lc))%Z), mkTracker lc u).
Proof.
  unfold reject_batch. cbn [un_committed last_committed]. rewrite rev_app_distr. cbn [rev app].
  destruct x as [[h r] z]. rewrite rev_involutive.
  destruct u as [|[[h1 r1] z1] u _] using rev_ind.
  - cbn [rev last]. destruct lc as [[a b] c]. reflexivity.
  - rewrite rev_app_distr, last_last. reflexivity.
Qed.

(** ** Together with the ledger, as the audit batch handler uses it *)
Section Handler.
  Variable H : bytes -> bytes.
  Variable B : Type.
  Variable ser_log : txn B -> bytes.
  Variable deser_log : bytes -> txn B.
  Variable ser_tree : txn B -> bytes.
  Hypothesis deser_ser : forall x, deser_log (ser_log x) = x.
  Hypothesis ser_nonempty : forall x, ser_log x <> [].
  Hypothesis digest_nonempty : forall x, H x <> [].

  Notation handler := (handler B).
  Notation hrun := (hrun H B ser_log ser_tree).
  Notation hstep := (hstep H B ser_log ser_tree).

  (** The committed transactions and the transactions of each applied batch. *)
  Record hst := mkHst { h_committed : list (txn B); h_batches : list (list (txn B)) }.

  Definition body_txns (n : nat) (o : option B) : list (txn B) :=
    match o with None => [] | Some b => [mkTxn b (Some (S n))] end.

  Inductive hspec : hst -> hop B -> hst -> Prop :=
  | H_apply c bs o :
      hspec (mkHst c bs) (HApply o) (mkHst c (bs ++ [body_txns (length (c ++ concat bs)) o]))
  | H_commit c b bs : hspec (mkHst c (b :: bs)) HCommit (mkHst (c ++ b) bs)
  | H_reject c b bs : hspec (mkHst c (bs ++ [b])) HReject (mkHst c bs)
  | H_catchup c bodies : hspec (mkHst c []) (HCatchup bodies) (mkHst (c ++ numbered (length c) bodies) []).
  Inductive hspecs : hst -> list (hop B) -> hst -> Prop :=
  | Hs_nil s : hspecs s [] s
  | Hs_cons s o s1 os s2 : hspec s o s1 -> hspecs s1 os s2 -> hspecs s (o :: os) s2.

  Definition trip (L : list (txn B)) : bytes * bytes * Z :=
    ([], mthh H (lhs H B ser_tree L), Z.of_nat (length L)).
  Fixpoint snaps (C : list (txn B)) (bs : list (list (txn B))) : list (bytes * bytes * Z) :=
    match bs with
    | [] => []
    | b :: bs' => trip (C ++ b) :: snaps (C ++ b) bs'
    end.

  Definition HInv (h : handler) (s : hst) : Prop :=
    PInv H B ser_log ser_tree (h_ledger h)
      (mkLst (h_committed s) (concat (h_batches s)) (still true (concat (h_batches s)))) /\
    h_tracker h = mkTracker (trip (h_committed s)) (snaps (h_committed s) (h_batches s)).

  Lemma snaps_app C bs b : snaps C (bs ++ [b]) = snaps C bs ++ [trip (C ++ concat bs ++ b)].
  Proof.
    revert C. induction bs as [|a bs IH]; intros C; simpl; [rewrite ?app_nil_r; reflexivity|].
    rewrite IH. cbn [app]. rewrite <- !app_assoc. reflexivity.
  Qed.

  Lemma unc_root p s : PInv H B ser_log ser_tree p s ->
    uncommitted_root_hash H B p = Ok (mthh H (lhs H B ser_tree (committed s ++ uncommitted s))) /\
    uncommitted_size p = length (committed s ++ uncommitted s) /\ size (p_base p) = length (committed s).
  Proof.
    intros I. destruct (PInv_Shows H B ser_log deser_log ser_tree deser_ser ser_nonempty digest_nonempty p s I)
      as (A1 & _ & A2 & (r & A3 & A4) & _).
    apply MTH_mthh in A4. rewrite map_map in A4. fold (lhs H B ser_tree (committed s ++ uncommitted s)) in A4.
    subst r. auto.
  Qed.

  Lemma trip_diff C b : (snd (trip (C ++ b)) - snd (trip C))%Z = Z.of_nat (length b).
  Proof. unfold trip. cbn [snd]. rewrite app_length. lia. Qed.

  Lemma apply_one p s b : PInv H B ser_log ser_tree p s ->
    exists p', (r <- appendTxns H B ser_tree p (append_txns_metadata p [mkTxn b None]) ;; Ok (snd r)) = Ok p' /\
      PInv H B ser_log ser_tree p'
        (mkLst (committed s) (uncommitted s ++ [mkTxn b (Some (S (length (committed s ++ uncommitted s))))]) true).
  Proof.
    intros I. destruct (apply_sim H B ser_log deser_log ser_tree p s [b] I) as (p' & E & I').
    unfold step in E. cbn [map] in E.
    destruct (appendTxns H B ser_tree p (append_txns_metadata p [mkTxn b None])) as [[r q]|]; [|discriminate].
    cbn [bind] in E. inversion E; subst. exists p'. split; [reflexivity|].
    rewrite app_length. exact I'.
  Qed.

  Definition hallowed (s : hst) (o : hop B) : Prop :=
    match o with
    | HApply _ => True
    | HCommit | HReject => h_batches s <> []
    | HCatchup _ => h_batches s = []
    end.

  Lemma catchup_ok bodies : forall p C, PInv H B ser_log ser_tree p (mkLst C [] false) ->
    exists p', catchup_adds H B ser_log ser_tree p bodies = Ok p' /\
      PInv H B ser_log ser_tree p' (mkLst (C ++ numbered (length C) bodies) [] false).
  Proof.
    induction bodies as [|b bs IH]; intros p C I; cbn [catchup_adds numbered].
    - rewrite app_nil_r. eauto.
    - destruct (sim H B ser_log deser_log ser_tree deser_ser p _ (OAdd b) I) as (p1 & s1 & E & L & I1); [split; reflexivity|].
      unfold step in E.
      destruct (p_add H B ser_log ser_tree p (mkTxn b None)) as [[[mi q] ws]|]; [|discriminate].
      cbn [bind] in E |- *. inversion E; subst. inversion L; subst. cbn [numbered] in I1.
      destruct (IH p1 _ I1) as (p2 & E2 & I2). rewrite E2. exists p2. split; auto.
      rewrite app_length, Nat.add_1_r, <- app_assoc in I2. exact I2.
  Qed.

  Lemma hsim h s o : HInv h s -> hallowed s o ->
    exists h' s', hstep h o = Ok h' /\ hspec s o s' /\ HInv h' s'.
  Proof.
    destruct h as [p t], s as [C bs]. unfold HInv. cbn [h_ledger h_tracker h_committed h_batches]. intros [I ->] A.
    destruct o as [[b|]| | |bodies]; cbn [hallowed h_batches] in A.
    - (* apply one audit transaction *)
      cbn [Tracker_Model.hstep]. unfold post_batch_applied. cbn [h_ledger h_tracker].
      destruct (apply_one p _ b I) as (p' & E & I'). cbn [committed uncommitted] in I'.
      destruct (appendTxns H B ser_tree p (append_txns_metadata p [mkTxn b None])) as [[r q]|]; [|discriminate].
      cbn [bind snd] in E |- *. inversion E; subst q.
      destruct (unc_root p' _ I') as (U1 & U2 & _). rewrite U1. cbn [bind]. cbn [committed uncommitted] in *.
      unfold apply_batch. destruct (Z.ltb_spec (Z.of_nat (uncommitted_size p')) 0); [lia|]. cbn [bind].
      eexists _, _. split; [reflexivity|]. split; [constructor|].
      cbn [h_ledger h_tracker h_committed h_batches last_committed un_committed body_txns].
      rewrite concat_app. cbn [concat]. rewrite app_nil_r. split.
      + assert (still true (concat bs ++ [mkTxn b (Some (S (length (C ++ concat bs))))]) = true) as ->
          by (destruct (concat bs); reflexivity). exact I'.
      + rewrite snaps_app. do 2 f_equal. rewrite U2. unfold trip. reflexivity.
    - (* a batch without audit transaction *)
      cbn [Tracker_Model.hstep]. unfold post_batch_applied. cbn [h_ledger h_tracker bind].
      destruct (unc_root p _ I) as (U1 & U2 & _). rewrite U1. cbn [bind]. cbn [committed uncommitted] in *.
      unfold apply_batch. destruct (Z.ltb_spec (Z.of_nat (uncommitted_size p)) 0); [lia|]. cbn [bind].
      eexists _, _. split; [reflexivity|]. split; [constructor|].
      cbn [h_ledger h_tracker h_committed h_batches last_committed un_committed body_txns].
      rewrite concat_app. cbn [concat]. rewrite !app_nil_r. split; [exact I|].
      rewrite snaps_app, app_nil_r. do 2 f_equal. rewrite U2. reflexivity.
    - (* commit *)
      destruct bs as [|b bs]; [congruence|].
      cbn [Tracker_Model.hstep]. unfold handler_commit_batch, commit_batch.
      cbn [h_ledger h_tracker un_committed snaps last_committed bind].
      unfold trip at 1. cbn [bind].
      change (Z.of_nat (length (C ++ b)))%Z with (snd (trip (C ++ b))). rewrite trip_diff.
      unfold to_count. destruct (Z.ltb_spec (Z.of_nat (length b)) 0); [lia|]. rewrite Nat2Z.id. cbn [bind].
      destruct (sim H B ser_log deser_log ser_tree deser_ser p _ (OCommit (length b)) I Logic.I) as (p1 & s1 & E & L & I1).
      unfold step in E.
      destruct (commitTxns H B ser_log ser_tree p (length b)) as [[[[rg pr] q] ws]|]; [|discriminate].
      cbn [bind] in E |- *. inversion E; subst q. inversion L; subst.
      assert (F1 : firstn (length b) (b ++ concat bs) = b).
      { rewrite firstn_app, Nat.sub_diag, firstn_all. apply app_nil_r. }
      assert (F2 : skipn (length b) (b ++ concat bs) = concat bs).
      { rewrite skipn_app, Nat.sub_diag, skipn_all. reflexivity. }
      cbn [concat] in I1. rewrite F1, F2 in I1.
      eexists _, _. split; [reflexivity|]. split; [constructor|].
      cbn [h_ledger h_tracker h_committed h_batches]. split; [|reflexivity].
      assert (still (still true (b ++ concat bs)) (concat bs) = still true (concat bs)) as EQ.
      { destruct (concat bs); [reflexivity|]. destruct b; reflexivity. }
      rewrite EQ in I1. exact I1.
    - (* reject *)
      destruct bs as [|b bs _] using rev_ind; [congruence|].
      cbn [Tracker_Model.hstep]. unfold post_batch_rejected. cbn [h_ledger h_tracker].
      rewrite snaps_app, reject_last.
      assert (RB : last (snaps C bs) (trip C) = trip (C ++ concat bs)).
      { destruct bs as [|b1 bs _] using rev_ind; [simpl; rewrite app_nil_r; reflexivity|].
        rewrite snaps_app, concat_app, last_last. cbn [concat]. rewrite app_nil_r. reflexivity. }
      rewrite RB, app_assoc, trip_diff. unfold trip at 1. cbn [bind fst].
      unfold to_count. destruct (Z.ltb_spec (Z.of_nat (length b)) 0); [lia|]. rewrite Nat2Z.id. cbn [bind].
      assert (CC : concat (bs ++ [b]) = concat bs ++ b) by (rewrite concat_app; cbn; rewrite app_nil_r; reflexivity).
      destruct (sim H B ser_log deser_log ser_tree deser_ser p _ (ODiscard (length b)) I) as (p1 & s1 & E & L & I1).
      { cbn [allowed uncommitted]. rewrite CC, app_length. lia. }
      unfold step in E. rewrite E. cbn [bind].
      eexists _, _. split; [reflexivity|]. split; [constructor|].
      cbn [h_ledger h_tracker h_committed h_batches]. split; [|reflexivity].
      rewrite CC in L.
      inversion L; subst.
      + destruct b; [|discriminate]. rewrite app_nil_r in I1. exact I1.
      + assert (EE : u = concat bs /\ v = b) by (apply app_inv_length_r; auto; congruence).
        destruct EE as [-> ->].
        assert (still (still true (concat bs ++ b)) (concat bs) = still true (concat bs)) as EQ
          by (destruct (concat bs); reflexivity).
        rewrite EQ in I1. exact I1.
    - (* catchup *)
      subst bs. cbn [concat still] in I. cbn [Tracker_Model.hstep h_ledger h_tracker].
      destruct (catchup_ok bodies p C I) as (p' & E & I'). rewrite E. cbn [bind].
      unfold on_catchup_finished. cbn [h_ledger h_tracker].
      destruct (unc_root p' _ I') as (U1 & _ & U3). rewrite U1. cbn [bind]. cbn [committed uncommitted] in *.
      eexists _, _. split; [reflexivity|]. split; [constructor|].
      cbn [h_ledger h_tracker h_committed h_batches concat still snaps]. split; [exact I'|].
      unfold set_last_committed. cbn [un_committed]. rewrite U3, app_nil_r. reflexivity.
  Qed.

  (** A history in which commits and rejects only happen while batches are applied, and
      catchup only while none is. *)
  Fixpoint hall (s : hst) (os : list (hop B)) : Prop :=
    match os with
    | [] => True
    | o :: os' => hallowed s o /\ forall s', hspec s o s' -> hall s' os'
    end.

  (** In every such history no call raises, the ledger's uncommitted transactions are exactly
      those of the applied batches, and the tracker's sizes agree with the ledger. *)
  Theorem C40_handler : forall os p0 h0,
    new_ledger H B deser_log ser_tree = Ok p0 -> new_handler H B p0 = Ok h0 -> hall (mkHst [] []) os ->
    exists h s, hrun h0 os = Ok h /\ hspecs (mkHst [] []) os s /\
      p_unc (h_ledger h) = concat (h_batches s) /\
      (exists t, Shows H B deser_log ser_tree (h_ledger h) (mkLst (h_committed s) (concat (h_batches s)) t)) /\
      snd (last_committed (h_tracker h)) = Z.of_nat (size (p_base (h_ledger h))) /\
      length (un_committed (h_tracker h)) = length (h_batches s).
  Proof.
    intros os p0 h0 E0 E1 A.
    destruct (new_ok H B ser_log deser_log ser_tree deser_ser) as (q0 & F0 & I0).
    assert (q0 = p0) by congruence. subst q0.
    assert (HI : HInv h0 (mkHst [] [])).
    { unfold new_handler in E1. destruct (unc_root p0 _ I0) as (U1 & _ & U3). rewrite U1 in E1. cbn [bind] in E1.
      inversion E1; subst. split; [exact I0|]. cbn. rewrite U3. reflexivity. }
    assert (G : forall os h s, HInv h s -> hall s os -> exists h' s', hrun h os = Ok h' /\ hspecs s os s' /\ HInv h' s').
    { clear -deser_ser ser_nonempty digest_nonempty. induction os as [|o os IH]; intros h s I A; [exists h, s; split; [reflexivity|]; split; [constructor|auto]|].
      destruct A as [A1 A2]. destruct (hsim h s o I A1) as (h1 & s1 & E & L & I1).
      destruct (IH h1 s1 I1 (A2 _ L)) as (h2 & s2 & E2 & L2 & I2).
      exists h2, s2. cbn [Tracker_Model.hrun]. rewrite E. split; [exact E2|]. split; [econstructor; eauto|auto]. }
    destruct (G os h0 _ HI A) as (h & s & E & L & [I T]).
    exists h, s. split; auto. split; auto. split; [apply I|].
    split; [eexists; apply (PInv_Shows H B ser_log deser_log ser_tree deser_ser ser_nonempty digest_nonempty); exact I|].
    destruct (unc_root _ _ I) as (_ & _ & U). cbn [committed] in U. rewrite T, U. cbn [last_committed un_committed trip snd].
    split; [reflexivity|]. clear. generalize (h_committed s). induction (h_batches s); intros; simpl; auto.
  Qed.
End Handler.

(** Three batches (one without audit transaction), a reject and two commits, then a catchup. *)
Example ex_C40_handler :
  exists p0 h0 h, new_ledger toyH N deser1 ser1 = Ok p0 /\ new_handler toyH N p0 = Ok h0 /\
    hrun toyH N ser1 ser1 h0 [HApply (Some 7%N); HApply None; HApply (Some 8%N); HReject; HCommit; HApply (Some 9%N);
                            HCommit; HCommit; HCatchup [3%N; 4%N]; HApply (Some 5%N)] = Ok h /\
    p_unc (h_ledger h) = [mkTxn 5%N (Some 5)] /\ size (p_base (h_ledger h)) = 4 /\
    snd (last_committed (h_tracker h)) = 4%Z.
Proof.
  eexists _, _, _. split; [vm_compute; reflexivity|]. split; [vm_compute; reflexivity|].
  split; [vm_compute; reflexivity|]. split; [vm_compute; reflexivity|]. split; vm_compute; reflexivity.
Qed.

Lemma ex_C40_hall : hall N (mkHst N [] []) [HApply (Some 7%N); HApply None; HApply (Some 8%N); HReject; HCommit].
Proof.
  split; [exact I|]. intros s1 S1. inversion S1; subst. split; [exact I|]. intros s2 S2. inversion S2; subst.
  split; [exact I|]. intros s3 S3. inversion S3; subst. split; [discriminate|]. intros s4 S4. inversion S4 as [| |c b bs|]; subst.
  assert (E : bs = [[mkTxn 7%N (Some 1)]; []]).
  { match goal with E : bs ++ [b] = _ |- _ => change (([[]] ++ ?x)) with x in E;
      apply (app_inj_tail bs [[mkTxn 7%N (Some 1)]; []]) in E; apply E end. }
  subst. split; [discriminate|]. intros s5 S5. exact I.
Qed.

Print Assumptions C40_tracker.
Print Assumptions C40_tracker_errors.
Print Assumptions C40_handler.
