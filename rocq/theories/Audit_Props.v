(** Property C41: what the audit ledger says can be read back. *)
From Coq Require Import List Arith NArith ZArith Bool Lia.
From Verif Require Import Base Dict Merkle_Model Merkle_Props Ledger_Model Ledger_Spec Ledger_Proofs Ledger_Proofs2 Ledger_Props
  Tracker_Model Tracker_Props Codec Audit_Model Audit_Spec Audit_Proofs.
Import ListNotations.
Local Open Scope res_scope.

Lemma numbered_app {B} (x y : list B) : forall n, numbered n (x ++ y) = numbered n x ++ numbered (n + length x) y.
Proof.
  induction x as [|b x IH]; intros n; cbn [app numbered length]; [rewrite Nat.add_0_r; reflexivity|].
  rewrite IH. cbn [app]. replace (S n + length x) with (n + S (length x)) by lia. reflexivity.
Qed.
Lemma numbered_nth_error {B} (x : list B) : forall n i,
  nth_error (numbered n x) i = option_map (fun b => mkTxn b (Some (S (n + i)))) (nth_error x i).
Proof.
  induction x as [|b x IH]; intros n i; cbn [numbered]; [destruct i; reflexivity|].
  destruct i as [|i]; cbn [nth_error option_map]; [rewrite Nat.add_0_r; reflexivity|]. rewrite IH. replace (S n + i) with (n + S i) by lia. reflexivity.
Qed.
Lemma numbered_len {B} (x : list B) n : length (numbered n x) = length x.
Proof. revert n. induction x; intros; cbn; auto. Qed.
Lemma numbered_firstn {B} (x : list B) : forall k n, firstn k (numbered n x) = numbered n (firstn k x).
Proof. induction x; intros [|k] n; cbn; try reflexivity. rewrite IHx. reflexivity. Qed.
Lemma audited_app x y : audited (x ++ y) = audited x ++ audited y. Proof. apply filter_app. Qed.

Section Props.
  Variable root : list bytes -> bytes.
  Variable H : bytes -> bytes.
  Variable ser_log : txn adata -> bytes.
  Variable deser_log : bytes -> txn adata.
  Variable ser_tree : txn adata -> bytes.
  Hypothesis deser_ser : forall x, deser_log (ser_log x) = x.
  Hypothesis ser_nonempty : forall x, ser_log x <> [].
  Hypothesis digest_nonempty : forall x, H x <> [].

  Notation arun := (arun root H ser_log deser_log ser_tree).
  Notation astep := (astep root H ser_log deser_log ser_tree).
  Notation create_on := (create_on root deser_log).
  Notation HInv := (HInv H adata ser_log ser_tree).
  Notation Built := (Built root).
  Notation createL := (createL root).
  Notation shows := (PInv_Shows H adata ser_log deser_log ser_tree deser_ser ser_nonempty digest_nonempty).

  (** Reading the audit ledger by number gives the transactions [A]. *)
  Definition holds (p : pledger adata) (A : list adata) : Prop := forall n, get_by_seq_no_uncommitted adata deser_log p n =
    match n with
    | 0 => Err KeyError
    | S i => match nth_error A i with Some a => Ok (Some (mkTxn a (Some (S i)))) | None => Err KeyError end
    end.

  Lemma shows_holds p C U t A : Shows H adata deser_log ser_tree p (mkLst C U t) -> C ++ U = numbered 0 A ->
    holds p A /\ uncommitted_size p = length A /\
    get_last_txn adata deser_log p = Ok (option_map (fun x => mkTxn (snd x) (fst x)) (lastA A)).
  Proof.
    intros (S1 & _ & S3 & _ & S5 & S6 & S7 & S8 & S9 & S10 & _) E. cbn [committed uncommitted] in *.
    rewrite E in *. rewrite numbered_len in *. split; [|split; [exact S3|]].
    - intros [|i].
      + unfold get_by_seq_no_uncommitted. cbn [Nat.ltb]. destruct (Nat.ltb_spec (uncommitted_size p) 0); [lia|].
        destruct (Nat.ltb_spec (size (p_base p)) 0); [lia|]. apply S7. auto.
      + destruct (nth_error A i) as [a|] eqn:Ea.
        * destruct (S8 (S i)) as (x & X1 & X2).
          { assert (i < length A) by (apply nth_error_Some; congruence). lia. }
          rewrite X2. replace (S i - 1) with i in X1 by lia. rewrite numbered_nth_error, Ea in X1. cbn [option_map Nat.add] in X1. injection X1 as <-. reflexivity.
        * apply S9. apply nth_error_None in Ea. lia.
    - rewrite S10. clear. destruct A as [|a A _] using rev_ind; [reflexivity|].
      rewrite lastA_snoc, numbered_app, map_app. cbn [numbered map length]. rewrite last_last. reflexivity.
  Qed.

  Lemma create_on_L p A e b : holds p A -> uncommitted_size p = length A ->
    get_last_txn adata deser_log p = Ok (option_map (fun x => mkTxn (snd x) (fst x)) (lastA A)) ->
    create_on p e b = createL A (e, b).
  Proof.
    intros HO US GL. unfold Audit_Model.create_on, Audit_Proofs.createL. rewrite GL. cbn [bind fst snd]. rewrite US.
    assert (EQ : option_map (fun t : txn adata => (t_seq t, t_body t)) (option_map (fun x => mkTxn (snd x) (fst x)) (lastA A)) = lastA A).
    { destruct (lastA A) as [[q a]|]; reflexivity. }
    rewrite EQ. unfold create.
    assert (LK : forall n, payload (get_by_seq_no_uncommitted adata deser_log p n) = look A n).
    { intros n. rewrite HO. unfold payload. destruct n as [|i]; [reflexivity|]. cbn [look]. destruct (nth_error A i); reflexivity. }
    destruct (fill_ledgers root (e_ledgers e) (e_frozen e) (option_map snd (lastA A)) b _) as [a1|]; [|reflexivity]. cbn [bind].
    assert (FP : forall c, fill_primaries (lastA A) (length A) (fun n => payload (get_by_seq_no_uncommitted adata deser_log p n)) c
                           = fill_primaries (lastA A) (length A) (look A) c).
    { intros c. unfold fill_primaries. destruct (lastA A) as [[[q|] a]|]; [|reflexivity|reflexivity].
      destruct (a_prim a) as [[?|?]|]; [reflexivity| |reflexivity]. rewrite LK. reflexivity. }
    assert (FR : forall c, fill_node_reg (lastA A) (length A) (fun n => payload (get_by_seq_no_uncommitted adata deser_log p n)) c
                           = fill_node_reg (lastA A) (length A) (look A) c).
    { intros c. unfold fill_node_reg. destruct c; [|reflexivity]. destruct (lastA A) as [[[q|] a]|]; [|reflexivity|reflexivity].
      destruct (a_reg a) as [[?|?]|]; [reflexivity| |reflexivity]. rewrite LK. reflexivity. }
    rewrite FP, FR. reflexivity.
  Qed.

  Definition Rel (h : handler adata) (s : standing) : Prop := exists hs Ad Ap,
    HInv h hs /\ h_committed adata hs = numbered 0 Ad /\ concat (h_batches adata hs) = numbered (length Ad) Ap /\
    Built (audited (fst s ++ snd s)) (Ad ++ Ap) /\ length Ad = length (audited (fst s)) /\
    Forall2 (fun (x : env * batch) (t : list (txn adata)) => length t = if b_audit (snd x) then 1 else 0) (snd s) (h_batches adata hs).

  Lemma rel_ledger h s : Rel h s -> exists Ad Ap, Built (audited (fst s ++ snd s)) (Ad ++ Ap) /\ length Ad = length (audited (fst s)) /\
    holds (h_ledger h) (Ad ++ Ap) /\ uncommitted_size (h_ledger h) = length (Ad ++ Ap) /\ size (p_base (h_ledger h)) = length Ad /\
    get_last_txn adata deser_log (h_ledger h) = Ok (option_map (fun x => mkTxn (snd x) (fst x)) (lastA (Ad ++ Ap))) /\
    p_unc (h_ledger h) = numbered (length Ad) Ap /\
    (forall n, getBySeqNo adata deser_log (p_base (h_ledger h)) n =
       match n with 0 => Err KeyError
       | S i => match nth_error Ad i with Some a => Ok (Some (mkTxn a (Some (S i)))) | None => Err KeyError end end).
  Proof.
    intros (hs & Ad & Ap & [I T] & E1 & E2 & Bt & LA & F2). exists Ad, Ap. split; [exact Bt|]. split; [exact LA|].
    assert (Sh := shows _ _ I). assert (CU : h_committed adata hs ++ concat (h_batches adata hs) = numbered 0 (Ad ++ Ap)).
    { rewrite E1, E2, numbered_app. reflexivity. }
    destruct (shows_holds _ _ _ _ _ Sh CU) as (R1 & R2 & R3).
    destruct Sh as (S1 & _ & S3 & _ & S5 & S6 & S7 & _). cbn [committed uncommitted] in *.
    rewrite E1, numbered_len in S1. split; [exact R1|]. split; [exact R2|]. split; [exact S1|]. split; [exact R3|].
    split; [rewrite S5; exact E2|]. intros n. rewrite E1, numbered_len in *.
    destruct n as [|i]; [apply S7; auto|]. destruct (nth_error Ad i) as [a|] eqn:Ea.
    - destruct (S6 (S i)) as (x & X1 & X2). { assert (i < length Ad) by (apply nth_error_Some; congruence). lia. }
      rewrite X2. replace (S i - 1) with i in X1 by lia. rewrite numbered_nth_error, Ea in X1. cbn [option_map Nat.add] in X1. injection X1 as <-. reflexivity.
    - apply S7. apply nth_error_None in Ea. lia.
  Qed.

  Lemma rel_step h s o h' s' : Rel h s -> stand1 s o = Some s' -> astep h o = Ok h' -> Rel h' s'.
  Proof.
    intros R ST E. destruct (rel_ledger _ _ R) as (Ad0 & Ap0 & _ & _ & HO & US & SZ & GL & PU & _).
    destruct R as (hs & Ad & Ap & HI & E1 & E2 & Bt & LA & F2). destruct s as [done pending]. cbn [fst snd] in *.
    assert (CU : h_committed adata hs ++ concat (h_batches adata hs) = numbered 0 (Ad ++ Ap)) by (rewrite E1, E2, numbered_app; reflexivity).
    assert (CR : forall e b, create_on (h_ledger h) e b = createL (Ad ++ Ap) (e, b)).
    { intros e b. destruct (shows_holds _ _ _ _ _ (shows _ _ (proj1 HI)) CU) as (R1 & R2 & R3). apply create_on_L; assumption. }
    assert (SIM := fun o => hsim H adata ser_log deser_log ser_tree deser_ser ser_nonempty digest_nonempty h hs o HI).
    clear HO US SZ GL PU.
    destruct o as [e b| | |e b]; cbn [stand1] in ST; cbn [Audit_Model.astep] in E.
    - assert (ST' : s' = (done, pending ++ [(e, b)])) by (destruct pending; injection ST as <-; reflexivity). subst s'. clear ST.
      destruct (b_audit b) eqn:AB.
      + rewrite CR in E. destruct (createL (Ad ++ Ap) (e, b)) as [a|] eqn:EC; [|discriminate]. cbn [bind] in E.
        destruct (SIM (HApply (Some a)) Logic.I) as (h1 & s1 & X1 & X2 & X3). assert (h1 = h') by congruence. subst h1.
        inversion X2 as [c bs ob Q1 Q2 Q3| | |]; subst. cbn [h_committed h_batches] in *.
        exists (mkHst adata c (bs ++ [body_txns adata (length (c ++ concat bs)) (Some a)])), Ad, (Ap ++ [a]). cbn [fst snd h_committed h_batches].
        split; [exact X3|]. split; [exact E1|]. split.
        { rewrite concat_app, CU, E2, numbered_app. cbn [concat body_txns app numbered]. rewrite (numbered_app Ap [a]), app_length, !numbered_len. reflexivity. }
        split.
        { rewrite !app_assoc, (audited_app (done ++ pending)). cbn [audited filter snd]. rewrite AB. constructor; assumption. }
        split; [exact LA|]. apply Forall2_app; [exact F2|]. constructor; [|constructor]. cbn [snd body_txns length]. rewrite AB. reflexivity.
      + destruct (SIM (HApply None) Logic.I) as (h1 & s1 & X1 & X2 & X3). assert (h1 = h') by congruence. subst h1.
        inversion X2 as [c bs ob Q1 Q2 Q3| | |]; subst. cbn [h_committed h_batches] in *.
        exists (mkHst adata c (bs ++ [body_txns adata (length (c ++ concat bs)) None])), Ad, Ap. cbn [fst snd h_committed h_batches].
        split; [exact X3|]. split; [exact E1|]. split.
        { rewrite concat_app, E2. cbn [concat body_txns app]. rewrite app_nil_r. reflexivity. }
        split.
        { rewrite app_assoc, (audited_app (done ++ pending)). cbn [audited filter snd]. rewrite AB, app_nil_r. exact Bt. }
        split; [exact LA|]. apply Forall2_app; [exact F2|]. constructor; [|constructor]. cbn [snd body_txns length]. rewrite AB. reflexivity.
    - destruct pending as [|x rest]; [discriminate|]. injection ST as <-.
      inversion F2 as [|? t ? ts LT F2' Q1 Q2]; subst.
      assert (AL : hallowed adata hs HCommit) by (cbn; rewrite <- Q2; discriminate).
      destruct (SIM HCommit AL) as (h1 & s1 & X1 & X2 & X3). assert (h1 = h') by congruence. subst h1.
      inversion X2 as [|c b bs Q3 Q4 Q5| |]; subst. cbn [h_committed h_batches] in *. injection Q2 as -> ->. subst c.
      cbn [concat] in E2. exists (mkHst adata (numbered 0 Ad ++ b) bs). cbn [fst snd h_committed h_batches].
      destruct (b_audit (snd x)) eqn:AB.
      + destruct b as [|t [|? ?]]; [discriminate| |discriminate]. destruct Ap as [|a Ap]; [discriminate|].
        cbn [numbered app] in E2. injection E2 as -> E2.
        exists (Ad ++ [a]), Ap. split; [exact X3|]. split; [rewrite numbered_app; reflexivity|].
        split; [rewrite app_length; cbn [length]; rewrite Nat.add_1_r; exact E2|].
        split; [rewrite <- !app_assoc; exact Bt|]. split; [|exact F2'].
        rewrite audited_app, !app_length. cbn [audited filter]. rewrite AB. cbn [length]. lia.
      + destruct b; [|discriminate]. cbn [app] in E2. exists Ad, Ap. split; [exact X3|]. split; [apply app_nil_r|].
        split; [exact E2|]. split; [rewrite <- app_assoc; exact Bt|]. split; [|exact F2'].
        rewrite audited_app. cbn [audited filter]. rewrite AB, app_nil_r. exact LA.
    - destruct pending as [|y pending0]; [discriminate|]. assert (ST' : s' = (done, removelast (y :: pending0))) by congruence. subst s'. clear ST.
      remember (y :: pending0) as pending eqn:EP. assert (NE : pending <> []) by congruence. clear EP y pending0.
      destruct pending as [|x pending _] using rev_ind; [congruence|]. rewrite removelast_last.
      apply Forall2_app_inv_l in F2 as (ts & t1 & F2 & F3 & EB). inversion F3 as [|? t ? t0 LT F4]; subst. inversion F4; subst. clear F3 F4.
      assert (AL : hallowed adata hs HReject) by (cbn; rewrite EB; destruct ts; discriminate).
      destruct (SIM HReject AL) as (h1 & s1 & X1 & X2 & X3). assert (h1 = h') by congruence. subst h1.
      inversion X2 as [| |c b bs Q3 Q4 Q5|]; subst. cbn [h_committed h_batches] in *. apply app_inj_tail in EB as [-> ->]. subst c.
      rewrite concat_app in E2. cbn [concat] in E2. rewrite app_nil_r in E2.
      rewrite app_assoc, (audited_app (done ++ pending)) in Bt. cbn [audited filter] in Bt.
      cbn [fst snd]. destruct (b_audit (snd x)) eqn:AB.
      + destruct t as [|t [|? ?]]; [discriminate| |discriminate].
        assert (NP : Ap <> []) by (intros ->; destruct (concat ts); discriminate).
        destruct Ap as [|a Ap _] using rev_ind; [congruence|]. rewrite numbered_app in E2. cbn [numbered] in E2.
        apply app_inj_tail in E2 as [E2 _]. rewrite app_assoc in Bt. apply built_snoc_inv in Bt as (A' & a' & EA & Bt & _).
        apply app_inj_tail in EA as [<- <-].
        exists (mkHst adata (numbered 0 Ad) ts), Ad, Ap. cbn [h_committed h_batches]. auto 7.
      + destruct t; [|discriminate]. rewrite app_nil_r in E2, Bt. exists (mkHst adata (numbered 0 Ad) ts), Ad, Ap. cbn [h_committed h_batches]. auto 7.
    - destruct pending as [|y pending]; [|discriminate]. destruct (b_audit b) eqn:AB; [|discriminate]. injection ST as <-.
      inversion F2 as [Q1 Q2|]; subst. rewrite <- Q2 in *. cbn [concat] in E2.
      destruct Ap as [|? ?]; [|discriminate]. rewrite !app_nil_r in Bt. rewrite app_nil_r in CR.
      rewrite CR in E. destruct (createL Ad (e, b)) as [a|] eqn:EC; [|discriminate]. cbn [bind] in E.
      assert (AL : hallowed adata hs (HCatchup [a])) by (cbn; congruence).
      destruct (SIM (HCatchup [a]) AL) as (h1 & s1 & X1 & X2 & X3). assert (h1 = h') by congruence. subst h1.
      inversion X2 as [| | |c bodies Q3 Q4 Q5]; subst. cbn [h_committed h_batches] in *. subst c.
      exists (mkHst adata (numbered 0 Ad ++ numbered (length (numbered 0 Ad)) [a]) []), (Ad ++ [a]), []. cbn [fst snd h_committed h_batches concat].
      split; [exact X3|]. split; [rewrite numbered_app, numbered_len; reflexivity|]. split; [reflexivity|]. rewrite !app_nil_r.
      split; [rewrite audited_app; cbn [audited filter snd]; rewrite AB; constructor; assumption|].
      split; [|constructor]. rewrite audited_app, !app_length. cbn [audited filter snd]. rewrite AB. cbn [length]. lia.
  Qed.

  Lemma rel_run os : forall h s h' s', Rel h s -> stand s os = Some s' -> arun h os = Ok h' -> Rel h' s'.
  Proof.
    induction os as [|o os IH]; intros h s h' s' R ST E.
    - injection ST as <-. injection E as <-. exact R.
    - cbn [stand] in ST. cbn [Audit_Model.arun] in E. destruct (stand1 s o) as [s1|] eqn:S1; [|discriminate].
      destruct (astep h o) as [h1|] eqn:E1; [|discriminate]. cbn [bind] in E.
      exact (IH _ _ _ _ (rel_step _ _ _ _ _ R S1 E1) ST E).
  Qed.

  Lemma rel_init p0 h0 : new_ledger H adata deser_log ser_tree = Ok p0 -> new_handler H adata p0 = Ok h0 -> Rel h0 ([], []).
  Proof.
    intros E0 E1. destruct (new_ok H adata ser_log deser_log ser_tree deser_ser) as (q0 & F0 & I0).
    assert (q0 = p0) by congruence. subst q0. exists (mkHst adata [] []), [], []. cbn [h_committed h_batches fst snd concat numbered app audited filter].
    split; [|split; [reflexivity|split; [reflexivity|split; [constructor|split; [reflexivity|constructor]]]]].
    unfold new_handler in E1.
    destruct (unc_root H adata ser_log deser_log ser_tree deser_ser ser_nonempty digest_nonempty p0 _ I0) as (U1 & _ & U3). rewrite U1 in E1. cbn [bind] in E1.
    inversion E1; subst. split; [exact I0|]. cbn. rewrite U3. reflexivity.
  Qed.

  (** A history from an empty audit ledger: [done] are the committed batches, [pending] those
      applied on top, [h] the handler at the end. *)
  Definition history (os : list aop) (h : handler adata) (done pending : list (env * batch)) : Prop :=
    exists p0 h0, new_ledger H adata deser_log ser_tree = Ok p0 /\ new_handler H adata p0 = Ok h0 /\
      stand ([], []) os = Some (done, pending) /\ arun h0 os = Ok h.

  Lemma history_rel os h done pending : history os h done pending -> Rel h (done, pending).
  Proof. intros (p0 & h0 & E0 & E1 & ST & E). exact (rel_run _ _ _ _ _ (rel_init _ _ E0 E1) ST E). Qed.

  Lemma fields_built L A : Built L A -> Forall proper L -> forall i x a, nth_error L i = Some x -> nth_error A i = Some a ->
    a_view a = (match b_orig (snd x) with Some v => v | None => b_view (snd x) end) /\ a_seq a = b_seq (snd x) /\ a_digest a = b_digest (snd x).
  Proof.
    intros Bt. induction Bt as [|l A x a Bt IH E]; intros PR i y c Ey Ec; [destruct i; discriminate|].
    apply Forall_app in PR as [PR1 PR2]. inversion PR2; subst. assert (LN := built_length _ _ _ Bt).
    apply nth_snoc in Ey as [[L Ey]|[-> ->]].
    - rewrite nth_error_app1 in Ec by lia. exact (IH PR1 i y c Ey Ec).
    - rewrite <- LN, nth_snoc_last in Ec. injection Ec as <-. destruct (create_fields root A x a E) as (C1 & C2 & C3 & _); auto.
  Qed.

  (** *** C41 *)

  (** After any history, the ledger holds one transaction for each standing batch with audit
      transaction, in order, which names the batch; its primaries and its node registry stand for
      those of the batch. *)
  Theorem C41_names : forall os h done pending, history os h done pending ->
    let L := audited (done ++ pending) in Forall proper L ->
    exists A, holds (h_ledger h) A /\ length A = length L /\ size (p_base (h_ledger h)) = length (audited done) /\
      forall i x, nth_error L i = Some x -> exists a, nth_error A i = Some a /\
        a_view a = (match b_orig (snd x) with Some v => v | None => b_view (snd x) end) /\
        a_seq a = b_seq (snd x) /\ a_digest a = b_digest (snd x) /\
        (forall ps, b_prim (snd x) = Some ps -> stands_for a_prim A i ps) /\
        (forall reg, b_reg (snd x) = Some reg -> stands_for a_reg A i reg) /\ (b_reg (snd x) = None -> a_reg a = None).
  Proof.
    intros os h done pending Hi L PR. destruct (rel_ledger _ _ (history_rel _ _ _ _ Hi)) as (Ad & Ap & Bt & LA & HO & _ & SZ & _).
    cbn [fst snd] in *. fold L in Bt. exists (Ad ++ Ap). split; [exact HO|]. split; [exact (built_length _ _ _ Bt)|]. split; [congruence|].
    intros i x Ex. assert (GN := names_built _ _ _ Bt PR). assert (LN := built_length _ _ _ Bt).
    destruct (nth_error (Ad ++ Ap) i) as [a|] eqn:Ea; [|exfalso; apply nth_error_None in Ea; assert (i < length L) by (apply nth_error_Some; congruence); lia].
    exists a. split; [reflexivity|]. destruct (GN i x a Ex Ea) as (G1 & _ & G3 & G4).
    assert (CF : a_view a = (match b_orig (snd x) with Some v => v | None => b_view (snd x) end) /\ a_seq a = b_seq (snd x) /\ a_digest a = b_digest (snd x)).
    { exact (fields_built _ _ Bt PR i x a Ex Ea). }
    destruct CF as (C1 & C2 & C3). split; [exact C1|]. split; [exact C2|]. split; [exact C3|]. auto.
  Qed.

  (** Ledger roots and sizes. For every ledger that takes part in a batch, its transaction records the
      ledger's size, and any root it records stands for the root of the ledger's content at that
      batch. A root recorded for a frozen ledger is the one at the last batch before the freeze. *)
  Theorem C41_roots : forall os h done pending, history os h done pending ->
    let L := audited (done ++ pending) in Forall proper L -> grows L -> stays_frozen L ->
    exists A, holds (h_ledger h) A /\ length A = length L /\
      forall i x lid, nth_error L i = Some x -> exists a, nth_error A i = Some a /\
        (forall v, live lid x v -> get lid (a_size a) = Some (length (lv_txns v)) /\
           (ledger_root_of lid a <> None -> stands_for (ledger_root_of lid) A i (root (lv_txns v)))) /\
        (frozen lid x -> ledger_root_of lid a <> None -> exists j y w, j < i /\ nth_error L j = Some y /\ live lid y w /\
           (forall k z, j < k <= i -> nth_error L k = Some z -> frozen lid z) /\
           stands_for (ledger_root_of lid) A i (root (lv_txns w))) /\
        ((forall v, ~ live lid x v) -> ~ frozen lid x -> get lid (a_size a) = None /\ ledger_root_of lid a = None).
  Proof.
    intros os h done pending Hi L PR GR SF. destruct (rel_ledger _ _ (history_rel _ _ _ _ Hi)) as (Ad & Ap & Bt & LA & HO & _ & SZ & _).
    cbn [fst snd] in *. fold L in Bt. exists (Ad ++ Ap). split; [exact HO|]. assert (LN := built_length _ _ _ Bt). split; [exact LN|].
    intros i x lid Ex. assert (G := roots_built _ _ _ Bt PR GR SF).
    destruct (nth_error (Ad ++ Ap) i) as [a|] eqn:Ea; [|exfalso; apply nth_error_None in Ea; assert (i < length L) by (apply nth_error_Some; congruence); lia].
    exists a. split; [reflexivity|]. destruct (G i x a Ex Ea lid) as (G1 & G2 & G3). split; [exact G1|]. split; [exact G3|exact G2].
  Qed.

  (** A ledger that took part in every audited batch so far and is not empty has a root recorded. *)
  Theorem C41_root_present_partial : forall os h done pending, history os h done pending ->
    let L := audited (done ++ pending) in Forall proper L -> grows L -> stays_frozen L ->
    exists A, holds (h_ledger h) A /\ forall i x lid v, nth_error L i = Some x -> live lid x v -> lv_txns v <> [] ->
      (forall k y, k < i -> nth_error L k = Some y -> exists w, live lid y w) ->
      stands_for (ledger_root_of lid) A i (root (lv_txns v)).
  Proof.
    intros os h done pending Hi L PR GR SF. destruct (rel_ledger _ _ (history_rel _ _ _ _ Hi)) as (Ad & Ap & Bt & LA & HO & _ & SZ & _).
    cbn [fst snd] in *. fold L in Bt. exists (Ad ++ Ap). split; [exact HO|]. assert (LN := built_length _ _ _ Bt).
    intros i x lid v Ex Lv NE Al.
    destruct (nth_error (Ad ++ Ap) i) as [a|] eqn:Ea; [|exfalso; apply nth_error_None in Ea; assert (i < length L) by (apply nth_error_Some; congruence); lia].
    apply (roots_built _ _ _ Bt PR GR SF i x a Ex Ea lid); [exact Lv|].
    exact (roots_present _ _ _ Bt PR GR i x a lid v Ex Ea Lv Al NE).
  Qed.

  (** No history of applied, committed, rejected and caught up batches makes the handler raise,
      if every batch has primaries and every ledger a state. *)
  Theorem C41_never_raises : forall os p0 h0 done pending,
    new_ledger H adata deser_log ser_tree = Ok p0 -> new_handler H adata p0 = Ok h0 ->
    stand ([], []) os = Some (done, pending) ->
    (forall e b, In (AApply e b) os \/ In (ACatchup e b) os -> proper (e, b) /\ equipped (e, b)) ->
    exists h, arun h0 os = Ok h.
  Proof.
    intros os p0 h0 done pending E0 E1 ST EQ. assert (R := rel_init _ _ E0 E1).
    assert (AL : forall x, In x (audited (fst (@nil (env * batch), @nil (env * batch)) ++ snd (@nil (env * batch), @nil (env * batch)))) -> proper x /\ equipped x)
      by (intros x []).
    assert (STD : forall s o s', stand1 s o = Some s' -> forall x, In x (audited (fst s' ++ snd s')) ->
      In x (audited (fst s ++ snd s)) \/ exists e b, x = (e, b) /\ (o = AApply e b \/ o = ACatchup e b)).
    { intros [dn pn] o s' S1 x Ix. cbn [fst snd] in *. unfold audited in *. apply filter_In in Ix as [Ix AX].
      destruct o as [e b| | |e b]; cbn [stand1] in S1.
      - assert (ST' : s' = (dn, pn ++ [(e, b)])) by (destruct pn; injection S1 as <-; reflexivity). subst s'. cbn [fst snd] in Ix.
        rewrite app_assoc in Ix. apply in_app_iff in Ix as [Ix|[<-|[]]]; [left; apply filter_In; auto|right; eauto].
      - destruct pn; [discriminate|]. injection S1 as <-. cbn [fst snd] in Ix. rewrite <- app_assoc in Ix. left. apply filter_In; auto.
      - destruct pn as [|y pn0]; [discriminate|]. assert (ST' : s' = (dn, removelast (y :: pn0))) by congruence. subst s'. cbn [fst snd] in Ix.
        left. apply filter_In. split; [|exact AX]. rewrite (app_removelast_last (l := y :: pn0) y) by discriminate.
        apply in_app_iff in Ix as [Ix|Ix]; apply in_app_iff; [auto|right; apply in_app_iff; auto].
      - destruct pn; [|discriminate]. destruct (b_audit b); [|discriminate]. injection S1 as <-. cbn [fst snd] in Ix. rewrite app_nil_r in *.
        apply in_app_iff in Ix as [Ix|[<-|[]]]; [left; apply filter_In; auto|right; eauto]. }
    revert R AL ST EQ. generalize (@nil (env * batch), @nil (env * batch)) as s. generalize h0 as h. clear E0 E1 h0 p0.
    induction os as [|o os IH]; intros h s R AL ST EQ; [eexists; reflexivity|].
    cbn [stand] in ST. destruct (stand1 s o) as [s1|] eqn:S1; [|discriminate]. cbn [Audit_Model.arun].
    assert (OK : exists h1, astep h o = Ok h1).
    { destruct (rel_ledger _ _ R) as (Ad & Ap & Bt & LA & HO & US & SZ & GL & _).
      assert (CR : forall e b, proper (e, b) -> equipped (e, b) -> exists a, create_on (h_ledger h) e b = Ok a).
      { intros e b PX QX. rewrite (create_on_L _ _ _ _ HO US GL). apply (create_ok root _ _ _ Bt); [| |exact PX|exact QX].
        - apply Forall_forall. intros y Iy. apply (AL y Iy).
        - intros y Iy. apply (AL y Iy). }
      destruct R as (hs & Ad' & Ap' & HI & _ & _ & _ & _ & F2).
      assert (SIM := fun o => hsim H adata ser_log deser_log ser_tree deser_ser ser_nonempty digest_nonempty h hs o HI).
      destruct s as [dn pn]. cbn [fst snd] in *. destruct o as [e b| | |e b]; cbn [stand1] in S1; cbn [Audit_Model.astep].
      - destruct (EQ e b) as [PX QX]; [left; left; reflexivity|]. destruct (CR e b PX QX) as [a ->]. cbn [bind].
        destruct (b_audit b); [destruct (SIM (HApply (Some a)) Logic.I) as (h1 & ? & X & _)|destruct (SIM (HApply None) Logic.I) as (h1 & ? & X & _)]; eauto.
      - destruct pn; [discriminate|]. inversion F2; subst. destruct (SIM HCommit) as (h1 & ? & X & _); [cbn; congruence|eauto].
      - destruct pn; [discriminate|]. inversion F2; subst. destruct (SIM HReject) as (h1 & ? & X & _); [cbn; congruence|eauto].
      - destruct pn; [|discriminate]. inversion F2; subst. destruct (EQ e b) as [PX QX]; [right; left; reflexivity|].
        destruct (CR e b PX QX) as [a ->]. cbn [bind]. destruct (SIM (HCatchup [a])) as (h1 & ? & X & _); [cbn; congruence|eauto]. }
    destruct OK as [h1 E1]. rewrite E1. cbn [bind].
    apply (IH h1 s1); [exact (rel_step _ _ _ _ _ R S1 E1)| |exact ST|].
    - intros x Ix. destruct (STD _ _ _ S1 x Ix) as [I0|(e & b & -> & O)]; [exact (AL x I0)|].
      apply (EQ e b). destruct O as [->| ->]; [left; left|right; left]; reflexivity.
    - intros e b I0. apply (EQ e b). destruct I0; [left; right|right; right]; assumption.
  Qed.

  (** *** Readers *)

  (** What a node reads as the last primaries are those of its last committed batch. *)
  Theorem C41_read_primaries : forall os h done pending before x ps, history os h done pending ->
    Forall proper (audited (done ++ pending)) -> audited done = before ++ [x] -> b_prim (snd x) = Some ps ->
    last_audited_primaries deser_log (h_ledger h) = Ok (Some ps).
  Proof.
    intros os h done pending dn x ps Hi PR LX BP.
    destruct (rel_ledger _ _ (history_rel _ _ _ _ Hi)) as (Ad & Ap & Bt & LA & HO & _ & SZ & _ & _ & GB).
    cbn [fst snd] in *. assert (GN := names_built _ _ _ Bt PR). rewrite audited_app in *.
    unfold last_audited_primaries, get_last_committed_txn. rewrite SZ.
    rewrite LX in *.
    rewrite app_length in LA. cbn [length] in LA. destruct Ad as [|a Ad _] using rev_ind; [cbn in LA; lia|].
    rewrite app_length in LA |- *. cbn [length] in LA |- *.
    destruct (Nat.ltb_spec 0 (length Ad + 1)); [|lia]. rewrite GB. rewrite Nat.add_1_r, nth_snoc_last. cbn [bind t_body t_seq].
    assert (Ex : nth_error ((dn ++ [x]) ++ audited pending) (length Ad) = Some x).
    { rewrite nth_error_app1 by (rewrite app_length; cbn; lia). replace (length Ad) with (length dn) by lia. apply nth_snoc_last. }
    assert (Ea : nth_error ((Ad ++ [a]) ++ Ap) (length Ad) = Some a).
    { rewrite nth_error_app1 by (rewrite app_length; cbn; lia). apply nth_snoc_last. }
    destruct (GN _ x a Ex Ea) as (G1 & _). destruct (G1 ps BP) as (a1 & Q1 & Q2). rewrite Ea in Q1. injection Q1 as <-.
    destruct Q2 as [->|(n & a' & -> & Q3 & Q4 & Q5)]; [reflexivity|].
    rewrite GB. replace (S (length Ad) - n) with (S (length Ad - n)) by lia.
    rewrite nth_error_app1 in Q4 by (rewrite app_length; cbn; lia). rewrite Q4. cbn [payload bind t_body]. rewrite Q5. reflexivity.
  Qed.

  (** The batch that a 3PC key names among the batches applied and not yet committed. *)
  Definition named (v s : nat) (x : env * batch) : bool :=
    (s =? b_seq (snd x)) && (v =? match b_orig (snd x) with Some o => o | None => b_view (snd x) end).

  Lemma get_from_audit_walk fd p A v s val L : holds p A ->
    (forall i x a, nth_error L i = Some x -> nth_error A i = Some a -> a_seq a = b_seq (snd x) /\
       a_view a = match b_orig (snd x) with Some o => o | None => b_view (snd x) end) ->
    forall L2 A2 A1 x, A = A1 ++ A2 -> (exists L1, L = L1 ++ L2 /\ length L1 = length A1) -> length L2 = length A2 ->
    find (named v s) L2 = Some x -> (forall i, nth_error L i = Some x -> length A1 <= i -> stands_for fd A i val) ->
    get_from_audit deser_log fd p (numbered (length A1) A2) v s = Ok (Some val).
  Proof.
    intros HO FB. induction L2 as [|y L2 IH]; intros A2 A1 x EA (L1 & EL & LL) LN FD ST; [discriminate|].
    destruct A2 as [|a A2]; [discriminate|]. cbn [numbered get_from_audit t_body t_seq].
    assert (Ey : nth_error L (length A1) = Some y) by (rewrite EL, nth_error_app2, <- LL, Nat.sub_diag by lia; reflexivity).
    assert (Ea : nth_error A (length A1) = Some a) by (rewrite EA, nth_error_app2, Nat.sub_diag by lia; reflexivity).
    destruct (FB _ _ _ Ey Ea) as [F1 F2]. rewrite F1, F2. cbn [find] in FD. unfold named in FD at 1.
    destruct ((s =? b_seq (snd y)) && _) eqn:NM.
    - injection FD as <-. destruct (ST _ Ey (le_n _)) as (a0 & Q1 & Q2). rewrite Ea in Q1. injection Q1 as <-.
      destruct Q2 as [->|(n & a' & -> & Q3 & Q4 & Q5)]; [reflexivity|].
      rewrite HO. replace (S (length A1) - n) with (S (length A1 - n)) by lia. rewrite Q4. cbn [payload bind t_body]. rewrite Q5. reflexivity.
    - replace (S (length A1)) with (length (A1 ++ [a])) by (rewrite app_length; cbn; lia).
      apply (IH A2 (A1 ++ [a]) x); [rewrite <- app_assoc; exact EA| |cbn in LN; lia|exact FD|].
      + exists (L1 ++ [y]). rewrite <- app_assoc, !app_length. split; [exact EL|cbn; lia].
      + intros i Ei Li. apply ST; [exact Ei|]. rewrite app_length in Li. lia.
  Qed.

  (** When a batch is ordered, the primaries and the node registry put into the Ordered message are
      those the batch was applied with. *)
  Theorem C41_read_ordered : forall os h done pending v s x, history os h done pending ->
    Forall proper (audited (done ++ pending)) -> find (named v s) (audited pending) = Some x ->
    (forall ps, b_prim (snd x) = Some ps -> get_from_audit_for_ordered deser_log a_prim (h_ledger h) v s = Ok (Some ps)) /\
    (forall reg, b_reg (snd x) = Some reg -> get_from_audit_for_ordered deser_log a_reg (h_ledger h) v s = Ok (Some reg)).
  Proof.
    intros os h done pending v s x Hi PR FD.
    destruct (rel_ledger _ _ (history_rel _ _ _ _ Hi)) as (Ad & Ap & Bt & LA & HO & _ & _ & _ & PU & _).
    cbn [fst snd] in *. assert (GN := names_built _ _ _ Bt PR). assert (FB := fields_built _ _ Bt PR). assert (LN := built_length _ _ _ Bt).
    assert (FB' : forall i x a, nth_error (audited (done ++ pending)) i = Some x -> nth_error (Ad ++ Ap) i = Some a -> a_seq a = b_seq (snd x) /\
       a_view a = match b_orig (snd x) with Some o => o | None => b_view (snd x) end).
    { intros i y a Ey Ea. destruct (FB i y a Ey Ea) as (F1 & F2 & _). auto. }
    assert (EX : exists L1, audited (done ++ pending) = L1 ++ audited pending /\ length L1 = length Ad).
    { exists (audited done). rewrite audited_app. auto. }
    assert (LP : length (audited pending) = length Ap) by (rewrite audited_app, !app_length in LN; lia).
    assert (AT : forall i, nth_error (audited (done ++ pending)) i = Some x -> exists a, nth_error (Ad ++ Ap) i = Some a).
    { intros i Ei. destruct (nth_error (Ad ++ Ap) i) eqn:Ea; [eauto|]. exfalso. apply nth_error_None in Ea.
      assert (i < length (audited (done ++ pending))) by (apply nth_error_Some; congruence). lia. }
    split; intros val Ev; unfold get_from_audit_for_ordered; rewrite PU;
      apply (get_from_audit_walk _ _ (Ad ++ Ap) v s val _ HO FB' (audited pending) Ap Ad x eq_refl EX LP FD);
      intros i Ei _; destruct (AT i Ei) as [a Ea]; apply (GN i x a Ei Ea); exact Ev.
  Qed.

  (** The ledger root and size that freezing a ledger stores are those of the ledger at the last
      committed batch, if the ledger took part in every batch so far. *)
  Theorem C41_read_roots_partial : forall os h done pending before x lid v, history os h done pending ->
    let L := audited (done ++ pending) in Forall proper L -> grows L -> stays_frozen L ->
    audited done = before ++ [x] -> live lid x v -> lv_txns v <> [] ->
    (forall y, In y before -> exists w, live lid y w) ->
    exists st, load_hash_roots deser_log (h_ledger h) lid = Ok (Some (root (lv_txns v)), st, Some (length (lv_txns v))).
  Proof.
    intros os h done pending dn x lid v Hi L PR GR SF LX Lv NE Al.
    destruct (rel_ledger _ _ (history_rel _ _ _ _ Hi)) as (Ad & Ap & Bt & LA & HO & _ & SZ & _ & _ & GB).
    cbn [fst snd] in *. fold L in Bt. assert (EL : L = (dn ++ [x]) ++ audited pending) by (unfold L; rewrite audited_app, LX; reflexivity).
    assert (LN := built_length _ _ _ Bt).
    unfold load_hash_roots, get_last_committed_txn. rewrite SZ.
    rewrite LX, app_length in LA. cbn [length] in LA. destruct Ad as [|a Ad _] using rev_ind; [cbn in LA; lia|].
    rewrite app_length in LA |- *. cbn [length] in LA |- *.
    destruct (Nat.ltb_spec 0 (length Ad + 1)); [|lia]. rewrite GB. rewrite Nat.add_1_r, nth_snoc_last. cbn [bind t_body t_seq].
    assert (Ex : nth_error L (length Ad) = Some x).
    { rewrite EL, nth_error_app1 by (rewrite app_length; cbn; lia). replace (length Ad) with (length dn) by lia. apply nth_snoc_last. }
    assert (Ea : nth_error ((Ad ++ [a]) ++ Ap) (length Ad) = Some a).
    { rewrite nth_error_app1 by (rewrite app_length; cbn; lia). apply nth_snoc_last. }
    destruct (roots_built _ _ _ Bt PR GR SF _ x a Ex Ea lid) as (G1 & _). destruct (G1 v Lv) as [Gs Gr].
    rewrite Gs. destruct Gr as (a1 & Q1 & Q2).
    { apply (roots_present _ _ _ Bt PR GR _ x a lid v Ex Ea Lv); [|exact NE].
      intros k y Lk Ey. apply Al. rewrite EL, nth_error_app1 in Ey by (rewrite app_length; cbn; lia).
      rewrite nth_error_app1 in Ey by lia. exact (nth_error_In _ _ Ey). }
    rewrite Ea in Q1. injection Q1 as <-. unfold ledger_root_of in Q2.
    destruct Q2 as [->|(n & a' & -> & Q3 & Q4 & Q5)]; [eexists; reflexivity|].
    rewrite GB. replace (S (length Ad) - n) with (S (length Ad - n)) by lia.
    rewrite nth_error_app1 in Q4 by (rewrite app_length; cbn; lia). rewrite Q4. cbn [payload bind t_body]. rewrite Q5. eexists; reflexivity.
  Qed.
End Props.

(** *** A concrete history, with a toy codec *)
Definition c_fld {V} (c : codec V) : codec (fld V).
Proof.
  refine (c_map (c_sum c c_nat) (fun s => match s with inl x => Val x | inr n => Back n end) (fun f => match f with Val x => inl x | Back n => inr n end) _).
  intros [x|n]; reflexivity.
Defined.
Definition c_adata : codec adata.
Proof.
  pose (names := c_option (c_fld (c_list c_nat))).
  refine (c_map (c_pair (c_pair (c_pair c_nat c_nat) (c_pair (c_list (c_pair c_nat c_nat)) (c_list (c_pair c_nat (c_fld (c_list c_N))))))
                        (c_pair (c_pair (c_list (c_pair c_nat (c_list c_N))) names) (c_pair names c_nat)))
    (fun x => let '(((v, s), (sz, r)), ((st, p), (g, d))) := x in mkA v s sz r st p g d)
    (fun a => (((a_view a, a_seq a), (a_size a, a_root a)), ((a_state a, a_prim a), (a_reg a, a_digest a)))) _).
  intros []; reflexivity.
Defined.
Definition c_txn : codec (txn adata).
Proof.
  refine (c_map (c_pair c_adata (c_option c_nat)) (fun x => mkTxn (fst x) (snd x)) (fun t => (t_body t, t_seq t)) _).
  intros []; reflexivity.
Defined.
Definition ser_a (t : txn adata) : bytes := 1%N :: enc c_txn t.
Definition deser_a (b : bytes) : txn adata :=
  match dec c_txn (tl b) with Some (t, _) => t | None => mkTxn (mkA 0 0 [] [] [] None None 0) None end.
Lemma deser_ser_a x : deser_a (ser_a x) = x.
Proof. unfold deser_a, ser_a. cbn [tl]. rewrite <- (app_nil_r (enc c_txn x)), dec_enc. reflexivity. Qed.
Lemma ser_a_nonempty x : ser_a x <> []. Proof. discriminate. Qed.
Definition rt : list bytes -> bytes := fun l => N.of_nat (length l) :: concat l.

(** Ledger 0 and ledger 1; ledger 1 changes in every batch, ledger 0 never after genesis. The
    primaries change once; a batch is rejected; one is caught up. *)
Definition env1 (k : nat) : env := mkEnv [(0, mkLV [[7%N]; [8%N]] 0 (Some [1%N])); (1, mkLV (repeat [5%N] k) 1 (Some [2%N])); (3, mkLV [] 0 None)] [].
Definition bat (s : nat) (ps reg : list nat) : batch := mkBatch 1 0 None s s (Some ps) (Some reg) true.
Definition ops1 : list aop :=
  [AApply (env1 1) (bat 1 [10; 11] [10; 11; 12]); AApply (env1 2) (bat 2 [10; 11] [10; 11; 12]); AApply (env1 3) (bat 3 [10; 11] [10; 11; 12]); AReject;
   AApply (env1 3) (bat 3 [10; 11] [10; 11; 12]); ACommit; ACommit; ACommit; ACatchup (env1 4) (bat 4 [12] [10; 11]);
   AApply (env1 5) (bat 5 [12] [10; 11]); AApply (env1 6) (bat 6 [12] [10; 11])].
Definition done1 := [(env1 1, bat 1 [10; 11] [10; 11; 12]); (env1 2, bat 2 [10; 11] [10; 11; 12]); (env1 3, bat 3 [10; 11] [10; 11; 12]); (env1 4, bat 4 [12] [10; 11])].
Definition pend1 := [(env1 5, bat 5 [12] [10; 11]); (env1 6, bat 6 [12] [10; 11])].

Definition ends (os : list aop) (P : handler adata -> Prop) : Prop :=
  match new_ledger toyH adata deser_a ser_a with
  | Ok p0 => match new_handler toyH adata p0 with
             | Ok h0 => match arun rt toyH ser_a deser_a ser_a h0 os with Ok h => P h | Err _ => False end
             | Err _ => False
             end
  | Err _ => False
  end.
Lemma ends_history os P dn pn : ends os P -> stand ([], []) os = Some (dn, pn) ->
  exists h, history rt toyH ser_a deser_a ser_a os h dn pn /\ P h.
Proof.
  unfold ends. destruct (new_ledger toyH adata deser_a ser_a) as [p0|] eqn:E0; [|intros []].
  destruct (new_handler toyH adata p0) as [h0|] eqn:E1; [|intros []].
  destruct (arun rt toyH ser_a deser_a ser_a h0 os) as [h|] eqn:E; [|intros []]. intros HP ST.
  exists h. split; [|exact HP]. exists p0, h0. auto.
Qed.

Example ex_C41 : exists h, history rt toyH ser_a deser_a ser_a ops1 h done1 pend1 /\
  last_audited_primaries deser_a (h_ledger h) = Ok (Some [12]) /\
  get_from_audit_for_ordered deser_a a_reg (h_ledger h) 0 6 = Ok (Some [10; 11]) /\
  load_hash_roots deser_a (h_ledger h) 0 = Ok (Some (rt [[7%N]; [8%N]]), None, Some 2).
Proof. apply ends_history; [vm_compute; auto|reflexivity]. Qed.

Lemma proper1 k b : proper (env1 k, b).
Proof. split; [|constructor]. cbn. repeat (constructor; [cbn; intuition discriminate|]). constructor. Qed.
Lemma live1 lid k b v : live lid (env1 k, b) v -> (lid = 0 /\ lv_txns v = [[7%N]; [8%N]]) \/ (lid = 1 /\ lv_txns v = repeat [5%N] k).
Proof.
  intros (E & _ & N). cbn [fst e_ledgers env1 get] in E.
  destruct (lid =? 0) eqn:E0; [apply Nat.eqb_eq in E0; subst; injection E as <-; auto|].
  destruct (lid =? 1) eqn:E1; [apply Nat.eqb_eq in E1; subst; injection E as <-; auto|].
  destruct (lid =? 3) eqn:E3; [apply Nat.eqb_eq in E3; subst; exfalso; apply N; reflexivity|discriminate].
Qed.
Lemma repeat_grow {V} (x : V) j k : j <= k -> repeat x k = repeat x j ++ repeat x (k - j).
Proof. intros L. rewrite <- repeat_app. f_equal. lia. Qed.
(** the hypotheses of the theorems hold of it *)
Example ex_C41_hyps : let L := audited (done1 ++ pend1) in Forall proper L /\ grows L /\ stays_frozen L /\
  find (named 0 6) (audited pend1) = Some (env1 6, bat 6 [12] [10; 11]) /\
  (forall y, In y L -> exists w, live 0 y w) /\ (forall y, In y L -> equipped y).
Proof.
  assert (AT : forall i x, nth_error (audited (done1 ++ pend1)) i = Some x -> exists b, x = (env1 (S i), b) /\ b_prim b <> None).
  { intros i x E. do 6 (destruct i as [|i]; [injection E as <-; eexists; split; [reflexivity|discriminate]|]). destruct i; discriminate. }
  assert (IN : forall x, In x (audited (done1 ++ pend1)) -> exists k b, x = (env1 k, b) /\ b_prim b <> None).
  { intros x Ix. apply In_nth_error in Ix as [i Ei]. destruct (AT _ _ Ei) as (b & Eb). eauto. }
  cbv zeta. split; [|split; [|split; [|split; [|split]]]].
  - apply Forall_forall. intros x Ix. destruct (IN x Ix) as (k & b & -> & _). apply proper1.
  - intros i j x y lid v w Lij Ex Ey. destruct (AT _ _ Ex) as (bx & -> & _). destruct (AT _ _ Ey) as (by_ & -> & _). intros Lx Ly.
    apply live1 in Lx as [[-> ->]|[-> ->]]; apply live1 in Ly as [[C ->]|[C ->]]; try discriminate C;
      [exists []; rewrite app_nil_r; reflexivity|]. eexists. apply repeat_grow. lia.
  - intros i j x y lid Lij Ex Ey Fx. destruct (AT _ _ Ex) as (b & -> & _). exfalso. apply Fx. reflexivity.
  - reflexivity.
  - intros y Iy. destruct (IN y Iy) as (k & b & -> & _). eexists. split; [reflexivity|]. split; [reflexivity|discriminate].
  - intros y Iy. destruct (IN y Iy) as (k & b & -> & Pb). split; [exact Pb|]. intros lid v (E & _ & N). cbn [fst e_ledgers env1 get] in E.
    destruct (lid =? 0); [injection E as <-; discriminate|]. destruct (lid =? 1); [injection E as <-; discriminate|].
    destruct (lid =? 3) eqn:E3; [apply Nat.eqb_eq in E3; subst; exfalso; apply N; reflexivity|discriminate].
Qed.

(** *** What does not hold *)

(** A ledger that was registered later and starts with genesis transactions has a size but no
    root in the audit ledger, although it takes part in the batch and is not empty. *)
Definition env2 : env := mkEnv [(0, mkLV [[7%N]; [8%N]] 0 (Some [1%N])); (1, mkLV [[5%N]; [5%N]] 1 (Some [2%N])); (4, mkLV [[9%N]] 0 (Some [3%N]))] [].
Theorem C41_new_ledger_refuted : exists os h done pending x v, history rt toyH ser_a deser_a ser_a os h done pending /\
  audited (done ++ pending) = [(env1 1, bat 1 [10] [10]); x] /\ live 4 x v /\ lv_txns v <> [] /\
  forall t, get_by_seq_no_uncommitted adata deser_a (h_ledger h) 2 = Ok (Some t) ->
    get 4 (a_size (t_body t)) = Some 1 /\ ledger_root_of 4 (t_body t) = None.
Proof.
  destruct (ends_history [AApply (env1 1) (bat 1 [10] [10]); AApply env2 (bat 2 [10] [10])]
    (fun h => match get_by_seq_no_uncommitted adata deser_a (h_ledger h) 2 with
              | Ok (Some t) => get 4 (a_size (t_body t)) = Some 1 /\ ledger_root_of 4 (t_body t) = None
              | _ => False end) _ _ ltac:(vm_compute; auto) eq_refl) as (h & Hi & HP).
  eexists _, h, _, _, _, (mkLV [[9%N]] 0 (Some [3%N])). split; [exact Hi|]. split; [reflexivity|]. split; [split; [reflexivity|split; [reflexivity|discriminate]]|].
  split; [discriminate|]. intros t Et. rewrite Et in HP. exact HP.
Qed.

(** A ledger that is frozen right after a batch that changed it loses both its size and its root. *)
Definition env3 : env := mkEnv [(0, mkLV [[7%N]; [8%N]] 0 (Some [1%N])); (1, mkLV [[5%N]] 1 (Some [2%N]))] [(1, 1)].
Theorem C41_frozen_lost_refuted : exists os h done pending x, history rt toyH ser_a deser_a ser_a os h done pending /\
  audited (done ++ pending) = [(env1 1, bat 1 [10] [10]); x] /\ frozen 1 x /\
  forall t, get_by_seq_no_uncommitted adata deser_a (h_ledger h) 2 = Ok (Some t) ->
    get 1 (a_size (t_body t)) = None /\ ledger_root_of 1 (t_body t) = None.
Proof.
  destruct (ends_history [AApply (env1 1) (bat 1 [10] [10]); AApply env3 (mkBatch 0 0 None 2 2 (Some [10]) (Some [10]) true)]
    (fun h => match get_by_seq_no_uncommitted adata deser_a (h_ledger h) 2 with
              | Ok (Some t) => get 1 (a_size (t_body t)) = None /\ ledger_root_of 1 (t_body t) = None
              | _ => False end) _ _ ltac:(vm_compute; auto) eq_refl) as (h & Hi & HP).
  eexists _, h, _, _, _. split; [exact Hi|]. split; [reflexivity|]. split; [discriminate|].
  intros t Et. rewrite Et in HP. exact HP.
Qed.

(** The frozen ledgers are read from committed state. Two nodes that apply the same batch on the
    same audit ledger, one before and one after committing the batch that froze a ledger, create
    different audit transactions. *)
Theorem C41_frozen_timing_refuted : exists os h done pending b ls fr, history rt toyH ser_a deser_a ser_a os h done pending /\
  create_on rt deser_a (h_ledger h) (mkEnv ls []) b <> create_on rt deser_a (h_ledger h) (mkEnv ls fr) b.
Proof.
  destruct (ends_history [AApply (env1 1) (bat 1 [10] [10])]
    (fun h => create_on rt deser_a (h_ledger h) (mkEnv (e_ledgers (env1 2)) []) (bat 2 [10] [10])
              <> create_on rt deser_a (h_ledger h) (mkEnv (e_ledgers (env1 2)) [(1, 1)]) (bat 2 [10] [10])) _ _
    ltac:(vm_compute; discriminate) eq_refl) as (h & Hi & HP).
  eexists _, h, _, _, _, _, _. split; [exact Hi|exact HP].
Qed.

Print Assumptions C41_names.
Print Assumptions C41_roots.
Print Assumptions C41_root_present_partial.
Print Assumptions C41_never_raises.
Print Assumptions C41_read_primaries.
Print Assumptions C41_read_ordered.
Print Assumptions C41_read_roots_partial.
Print Assumptions C41_new_ledger_refuted.
Print Assumptions C41_frozen_lost_refuted.
Print Assumptions C41_frozen_timing_refuted.
