(** The ledger with uncommitted transactions refines the two-part list. *)
From Coq Require Import List Arith NArith Lia Bool.
From Verif Require Import Base Bits_Model Bits_Proofs Merkle_Spec Merkle_Model Merkle_Proofs Merkle_Store
  Merkle_Verify Merkle_Ledger Ledger_Model Ledger_Spec Ledger_Proofs.
Import ListNotations.
Local Open Scope res_scope.

Section Ledger.
  Variable H : bytes -> bytes.
  Variable B : Type.
  Variable ser_log : txn B -> bytes.
  Variable deser_log : bytes -> txn B.
  Variable ser_tree : txn B -> bytes.
  Hypothesis deser_ser : forall x, deser_log (ser_log x) = x.
  Hypothesis digest_nonempty : forall x, H x <> [].

  Notation mthh := (mthh H).
  Notation TreeOf := (TreeOf H).
  Notation lhs := (lhs H B ser_tree).
  Notation LInv := (LInv H B ser_log ser_tree).
  Notation DInv := (DInv H B ser_log ser_tree).
  Notation step := (step H B ser_log deser_log ser_tree).
  Notation run := (run H B ser_log deser_log ser_tree).
  Notation recoverTree := (recoverTree H B deser_log ser_tree).
  Notation restart := (restart H B deser_log ser_tree).

  Lemma lhs_app' L L' : lhs (L ++ L') = lhs L ++ lhs L'.
  Proof. apply map_app. Qed.

  Lemma base_add_ok l C x : LInv l C ->
    exists l' ws, base_add H B ser_log ser_tree l x
        = Ok ((S (length C), mthh (lhs (C ++ [x])), rev (peaks H (lhs C))), l', ws) /\
      LInv l' (C ++ [x]) /\ l_disk l' = apply_writes (l_disk l) ws /\
      forall k, DInv (apply_writes (l_disk l) (firstn k ws)) (if k =? 0 then C else C ++ [x]).
  Proof.
    intros LI. pose proof LI as [T G]. unfold base_add.
    set (w := WLog (l_seqNo l + 1) (ser_log x)).
    set (l1 := mkLedger (l_tree l) (l_leafCount l) (l_seqNo l) (apply_write (l_disk l) w)).
    assert (T1 : TInv H l1 (lhs C)) by exact T.
    assert (G1 : d_log (l_disk l1) = dlist (map ser_log (C ++ [x]))).
    { cbn. rewrite G. destruct T as (_ & _ & -> & _). rewrite lhs_length, Nat.add_1_r, map_app.
      rewrite <- (map_length ser_log C). apply kv_put_dlist. }
    destruct (addToTree_ok H l1 (lhs C) (ser_tree x) T1) as (l2 & E2 & T2 & G2 & D2).
    rewrite E2. cbn [bind]. rewrite lhs_length.
    eexists _, _. split; [rewrite lhs_app'; reflexivity|].
    split; [split; [rewrite lhs_app'; exact T2|congruence]|].
    split; [exact D2|].
    intros [|k]; cbn [Nat.eqb firstn].
    - apply LInv_DInv. exact LI.
    - change (apply_writes (l_disk l) (w :: ?z)) with (apply_writes (l_disk l1) z).
      destruct (tree_trace_prefix H (l_disk l1) (lhs C) (hash_leaf H (ser_tree x)) k) as [P Q]; try apply T1.
      cbn [apply_writes fold_left].
      change (fold_left apply_write (firstn k (tree_trace H (lhs C) (hash_leaf H (ser_tree x)))) (apply_write (l_disk l) w))
        with (apply_writes (l_disk l1) (firstn k (tree_trace H (lhs C) (hash_leaf H (ser_tree x))))).
      split; [congruence|]. rewrite lhs_app'. exact P.
  Qed.

  Definition infos (C txns : list (txn B)) : list merkle_info :=
    map (fun i => (length C + S i, mthh (lhs (C ++ firstn (S i) txns)), rev (peaks H (lhs (C ++ firstn i txns)))))
        (seq 0 (length txns)).

  Lemma adds_ok txns : forall p C, LInv (p_base p) C -> Forall (fun x => t_seq x <> None) txns ->
    exists l' ws, adds H B ser_log ser_tree p txns
        = Ok (mkP l' (p_unc p) (p_uncRoot p) (p_uncTree p), infos C txns, ws) /\
      LInv l' (C ++ txns) /\ l_disk l' = apply_writes (l_disk (p_base p)) ws /\
      forall k, exists j, j <= length txns /\
        DInv (apply_writes (l_disk (p_base p)) (firstn k ws)) (C ++ firstn j txns).
  Proof.
    induction txns as [|x xs IH]; intros p C LI F.
    - exists (p_base p), []. cbn. rewrite app_nil_r. destruct p. cbn. repeat split; auto; try apply LI.
      intros k. exists 0. split; [lia|]. rewrite firstn_nil, app_nil_r. cbn. apply LInv_DInv. exact LI.
    - cbn [adds]. unfold p_add. inversion F as [|? ? Fx Fxs]; subst.
      destruct (t_seq x) as [sq|] eqn:Sx; [|congruence].
      destruct (base_add_ok (p_base p) C x LI) as (l1 & ws1 & E1 & LI1 & D1 & P1).
      rewrite E1. cbn [bind].
      destruct (IH (mkP l1 (p_unc p) (p_uncRoot p) (p_uncTree p)) (C ++ [x]) LI1 Fxs) as (l2 & ws2 & E2 & LI2 & D2 & P2).
      rewrite E2. cbn [bind p_unc p_uncRoot p_uncTree p_base] in *.
      rewrite <- app_assoc in LI2. cbn [app] in LI2.
      exists l2, (ws1 ++ ws2). split; [|split; [exact LI2|split]].
      + do 2 f_equal. f_equal. unfold infos. cbn [length seq map]. f_equal.
        { cbn [firstn]. rewrite app_nil_r, Nat.add_1_r. reflexivity. }
        rewrite <- seq_shift, map_map. apply map_ext. intros i.
        rewrite app_length. cbn [length firstn]. rewrite <- !app_assoc. cbn [app].
        do 2 f_equal. lia.
      + rewrite apply_writes_app, <- D1. exact D2.
      + intros k. rewrite firstn_app. destruct (le_lt_dec k (length ws1)) as [Hk|Hk].
        * replace (k - length ws1) with 0 by lia. cbn [firstn]. rewrite app_nil_r.
          exists (if k =? 0 then 0 else 1). specialize (P1 k).
          destruct (k =? 0); cbn [firstn length]; (split; [lia|]); [rewrite app_nil_r|]; exact P1.
        * rewrite (firstn_all2 (n := k) ws1) by lia. rewrite apply_writes_app, <- D1.
          destruct (P2 (k - length ws1)) as (j & Hj & DJ). exists (S j). cbn [length firstn].
          split; [lia|]. rewrite <- app_assoc in DJ. exact DJ.
  Qed.

  Lemma tree_appends_ok txns : forall t C, TreeOf t (lhs C) ->
    exists t', tree_appends H B ser_tree t txns = Ok t' /\ TreeOf t' (lhs (C ++ txns)).
  Proof.
    induction txns as [|x xs IH]; intros t C T; cbn [tree_appends].
    - exists t. rewrite app_nil_r. auto.
    - destruct (append_ok H t (lhs C) (ser_tree x) T) as (t1 & E & T1). rewrite E. cbn [bind].
      destruct (IH t1 (C ++ [x])) as (t2 & E2 & T2).
      { rewrite lhs_app'. exact T1. }
      exists t2. rewrite <- app_assoc in T2. auto.
  Qed.

  Definition seqs_ok (s : lst (B := B)) : Prop :=
    forall i x, nth_error (committed s ++ uncommitted s) i = Some x -> t_seq x = Some (S i).

  Definition PInv (p : pledger B) (s : lst (B := B)) : Prop :=
    LInv (p_base p) (committed s) /\ p_unc p = uncommitted s /\ seqs_ok s /\
    if touched s
    then exists t, p_uncTree p = Some t /\ TreeOf t (lhs (committed s ++ uncommitted s)) /\
         p_uncRoot p = Some (mthh (lhs (committed s ++ uncommitted s)))
    else uncommitted s = [] /\ p_uncTree p = None /\ p_uncRoot p = None.

  Lemma append_seq_no_numbered (bs : list B) : forall n,
    append_seq_no (map (fun b => mkTxn b None) bs) n = numbered n bs.
  Proof.
    induction bs as [|b bs IH]; intros n; [reflexivity|].
    cbn [map append_seq_no numbered t_body]. rewrite Nat.add_1_r, IH. reflexivity.
  Qed.
  Lemma numbered_length (bs : list B) : forall n, length (numbered n bs) = length bs.
  Proof. induction bs as [|b bs IH]; intros; simpl; auto. Qed.
  Lemma numbered_nth (bs : list B) : forall n i x, nth_error (numbered n bs) i = Some x -> t_seq x = Some (S (n + i)).
  Proof.
    induction bs as [|b bs IH]; intros n [|i] x E; try discriminate; simpl in E.
    - injection E as <-. simpl. f_equal. lia.
    - apply IH in E. rewrite E. f_equal. lia.
  Qed.
  Lemma numbered_seq (bs : list B) n : existsb (fun x => match t_seq x with None => true | Some _ => false end) (numbered n bs) = false.
  Proof. revert n. induction bs as [|b bs IH]; intros n; simpl; auto. Qed.
  Lemma seqs_Forall s : seqs_ok s -> Forall (fun x => t_seq x <> None) (uncommitted s).
  Proof.
    intros Q. apply Forall_forall. intros x Hx. apply In_nth_error in Hx as [i Hi].
    rewrite (Q (length (committed s) + i) x); [congruence|].
    rewrite nth_error_app2 by lia. rewrite <- Hi. f_equal. lia.
  Qed.

  Lemma size_ok l C : LInv l C -> size l = length C.
  Proof. intros [[[E _] _] _]. unfold size. rewrite E. apply lhs_length. Qed.

  Lemma lst_eta (s : lst (B := B)) : s = mkLst (committed s) (uncommitted s) (touched s).
  Proof. destruct s; reflexivity. Qed.

  Lemma cur_tree_ok p s : PInv p s ->
    TreeOf (match p_uncTree p with
            | Some t => if tree_size t =? 0 then l_tree (p_base p) else t
            | None => l_tree (p_base p)
            end) (lhs (committed s ++ uncommitted s)).
  Proof.
    intros ([T _] & E & _ & D). destruct (touched s).
    - destruct D as (t & -> & Tt & _). destruct (Nat.eqb_spec (tree_size t) 0) as [Z|]; [|exact Tt].
      assert (length (committed s ++ uncommitted s) = 0).
      { rewrite <- (lhs_length H B ser_tree). destruct Tt as [<- _]. exact Z. }
      rewrite app_length in H0. destruct (committed s) as [|]; [|simpl in *; lia].
      destruct (uncommitted s) as [|]; [|simpl in *; lia]. apply T.
    - destruct D as (-> & -> & _). rewrite app_nil_r. apply T.
  Qed.

  Lemma apply_sim p s bs : PInv p s ->
    exists p', step p (OApply bs) = Ok p' /\
      PInv p' (mkLst (committed s) (uncommitted s ++ numbered (length (committed s) + length (uncommitted s)) bs) true).
  Proof.
    intros I. pose proof (cur_tree_ok p s I) as CT. destruct I as (LI & E & Q & D).
    unfold step, Ledger_Model.step. unfold append_txns_metadata. rewrite append_seq_no_numbered.
    assert (ES : l_seqNo (p_base p) = length (committed s)).
    { destruct LI as [(_ & _ & -> & _) _]. apply lhs_length. }
    rewrite ES, E. set (n := length (committed s) + length (uncommitted s)).
    unfold appendTxns. rewrite numbered_seq. unfold treeWithAppliedTxns. cbv zeta.
    destruct (tree_appends_ok (numbered n bs) _ (committed s ++ uncommitted s) CT) as (t' & Et & Tt).
    rewrite Et. cbn [bind]. rewrite (TreeOf_root H t' _ Tt). cbn [bind].
    eexists. split; [reflexivity|]. rewrite <- app_assoc in Tt.
    split; [exact LI|]. split; [cbn; congruence|]. split.
    - intros i x. cbn [committed uncommitted]. rewrite app_assoc.
      destruct (le_lt_dec (length (committed s ++ uncommitted s)) i) as [Hi|Hi].
      + rewrite nth_error_app2 by lia. intros N. apply numbered_nth in N. rewrite N. f_equal.
        rewrite app_length in *. unfold n. lia.
      + rewrite nth_error_app1 by lia. apply Q.
    - cbn [touched committed uncommitted p_uncTree p_uncRoot]. exists t'. rewrite <- app_assoc. auto.
  Qed.

  Lemma commit_ok p s count : PInv p s ->
    exists l ws, commitTxns H B ser_log ser_tree p count
      = Ok (match firstn count (uncommitted s) with
            | [] => (length (committed s), length (committed s))
            | _ => (length (committed s) + 1, length (committed s) + count)
            end,
            combine (firstn count (uncommitted s)) (infos (committed s) (firstn count (uncommitted s))),
            match skipn count (uncommitted s) with
            | [] => mkP l [] None None
            | _ => mkP l (skipn count (uncommitted s)) (p_uncRoot p) (p_uncTree p)
            end, ws) /\
      LInv l (committed s ++ firstn count (uncommitted s)) /\
      l_disk l = apply_writes (l_disk (p_base p)) ws /\
      forall k, exists j, j <= length (firstn count (uncommitted s)) /\
        DInv (apply_writes (l_disk (p_base p)) (firstn k ws))
             (committed s ++ firstn j (firstn count (uncommitted s))).
  Proof.
    intros (LI & E & Q & D).
    assert (F : Forall (fun x => t_seq x <> None) (firstn count (uncommitted s))).
    { apply Forall_forall. intros x Hx. apply (proj1 (Forall_forall _ _) (seqs_Forall s Q)).
      rewrite <- (firstn_skipn count (uncommitted s)). apply in_or_app. auto. }
    unfold commitTxns. rewrite E.
    destruct (adds_ok _ p (committed s) LI F) as (l & ws & Ea & La & Da & Pa).
    rewrite Ea. cbn [bind p_base p_uncRoot p_uncTree].
    exists l, ws. split; [|auto]. rewrite (size_ok _ _ LI). reflexivity.
  Qed.

  Lemma PInv_sub p l u' C' t' s : PInv p s -> LInv l C' ->
    C' ++ u' = committed s ++ uncommitted s ->
    p_unc (match u' with [] => mkP l [] None None | _ => mkP l u' (p_uncRoot p) (p_uncTree p) end) = u' ->
    t' = still (touched s) u' ->
    (touched s = false -> u' = []) ->
    PInv (match u' with [] => mkP l [] None None | _ => mkP l u' (p_uncRoot p) (p_uncTree p) end)
         (mkLst C' u' t').
  Proof.
    intros (LI & E & Q & D) L' EQ EU -> TU. unfold PInv. cbn [committed uncommitted touched].
    assert (Q' : seqs_ok (mkLst C' u' (still (touched s) u'))).
    { intros i x. cbn [committed uncommitted]. rewrite EQ. apply Q. }
    destruct u' as [|x u']; cbn [p_base p_unc p_uncTree p_uncRoot still].
    - repeat split; auto; apply L'.
    - split; [exact L'|]. split; [reflexivity|]. split; [exact Q'|].
      destruct (touched s); [|discriminate (TU eq_refl)].
      rewrite EQ. exact D.
  Qed.

  Lemma crash_ok js : forall d L, DInv d L -> ~ In 1 js ->
    exists d', crash_restarts H B deser_log ser_tree d js = Ok d' /\ DInv d' L.
  Proof.
    induction js as [|j js IH]; intros d L DI N; cbn [crash_restarts].
    - eauto.
    - destruct (recover_ok H B ser_log deser_log ser_tree deser_ser d L DI) as (l & ws & E & LI & D & P).
      rewrite E. cbn [bind]. apply IH.
      + apply P. intros ->. apply N. left. reflexivity.
      + intros X. apply N. right. exact X.
  Qed.

  Lemma restart_ok d L : DInv d L -> exists l, restart d = Ok l /\ LInv l L.
  Proof.
    intros DI. destruct (recover_ok H B ser_log deser_log ser_tree deser_ser d L DI) as (l & ws & E & LI & D & P).
    unfold restart, Ledger_Model.restart. rewrite E. cbn [bind]. eauto.
  Qed.

  Lemma fresh_PInv l L : LInv l L -> (forall i x, nth_error L i = Some x -> t_seq x = Some (S i)) ->
    PInv (fresh l) (mkLst L [] false).
  Proof.
    intros LI Q. repeat split; auto; try apply LI.
    intros i x. cbn [committed uncommitted]. rewrite app_nil_r. apply Q.
  Qed.

  Theorem sim p s o : PInv p s -> allowed s o ->
    exists p' s', step p o = Ok p' /\ lstep s o s' /\ PInv p' s'.
  Proof.
    intros I A. destruct o as [bs|count|count| |b|count k js].
    - destruct (apply_sim p s bs I) as (p' & E & I'). exists p'.
      eexists. split; [exact E|]. split; [|exact I']. rewrite (lst_eta s) at 1. constructor.
    - destruct (commit_ok p s count I) as (l & ws & E & L & D & P).
      unfold step, Ledger_Model.step. rewrite E. cbn [bind].
      eexists _, (mkLst (committed s ++ firstn count (uncommitted s)) (skipn count (uncommitted s)) (still (touched s) (skipn count (uncommitted s)))).
      split; [reflexivity|]. split; [rewrite (lst_eta s) at 1; constructor|].
      eapply PInv_sub; eauto.
      + rewrite <- app_assoc, firstn_skipn. reflexivity.
      + destruct (skipn count (uncommitted s)); reflexivity.
      + destruct I as (_ & _ & _ & D'). intros F. rewrite F in D'. destruct D' as [-> _]. apply skipn_nil.
    - simpl in A. unfold step, Ledger_Model.step, discardTxns.
      destruct (Nat.eqb_spec count 0) as [->|Hc].
      { exists p, s. split; [reflexivity|]. split; [|exact I]. rewrite (lst_eta s) at 1 2. constructor. }
      pose proof I as (LI & E & Q & D). rewrite E.
      destruct (Nat.ltb_spec (length (uncommitted s)) count); [lia|].
      set (u := firstn (length (uncommitted s) - count) (uncommitted s)) in *.
      set (v := skipn (length (uncommitted s) - count) (uncommitted s)) in *.
      assert (EUV : uncommitted s = u ++ v) by (symmetry; apply firstn_skipn).
      assert (LV : length v = count) by (unfold v; rewrite skipn_length; lia).
      assert (ST : lstep s (ODiscard count) (mkLst (committed s) u (still (touched s) u))).
      { rewrite (lst_eta s) at 1. rewrite EUV, <- LV. constructor. intros Z. rewrite Z in LV. simpl in LV. lia. }
      assert (TT : touched s = true).
      { destruct (touched s); auto. destruct D as [Z _]. rewrite Z in *. simpl in *. lia. }
      assert (Q' : seqs_ok (mkLst (committed s) u (still (touched s) u))).
      { intros i x. cbn [committed uncommitted]. intros N. apply Q. rewrite EUV, app_assoc.
        rewrite nth_error_app1; auto. apply nth_error_Some. congruence. }
      clearbody u v. destruct u as [|x u].
      { eexists _, _. split; [reflexivity|]. split; [exact ST|].
        apply fresh_PInv; [exact LI|]. intros i x N. apply (Q' i x). cbn. rewrite app_nil_r. exact N. }
      unfold treeWithAppliedTxns. cbv zeta.
      destruct (tree_appends_ok (x :: u) (l_tree (p_base p)) (committed s)) as (t & Et & Tt); [apply LI|].
      rewrite Et. cbn [bind]. rewrite (TreeOf_root H t _ Tt). cbn [bind].
      eexists _, _. split; [reflexivity|]. split; [exact ST|].
      split; [exact LI|]. split; [reflexivity|]. split; [exact Q'|].
      cbn [touched still]. rewrite TT. cbn [p_uncTree p_uncRoot committed uncommitted]. eauto.
    - exists (reset_uncommitted p), (mkLst (committed s) [] false). split; [reflexivity|].
      split; [rewrite (lst_eta s) at 1; constructor|].
      destruct I as (LI & E & Q & D). apply (fresh_PInv (p_base p)); auto.
      intros i x N. apply Q. rewrite nth_error_app1; auto. apply nth_error_Some. congruence.
    - simpl in A. destruct A as [AU AT]. destruct I as (LI & E & Q & D). rewrite AT in D.
      destruct D as (_ & D1 & D2). unfold step, Ledger_Model.step, p_add. cbn [t_seq t_body].
      assert (ES : l_seqNo (p_base p) = length (committed s)).
      { destruct LI as [(_ & _ & -> & _) _]. apply lhs_length. }
      rewrite ES, Nat.add_1_r.
      destruct (base_add_ok (p_base p) (committed s) (mkTxn b (Some (S (length (committed s))))) LI)
        as (l' & ws & Ea & La & _ & _).
      rewrite Ea. cbn [bind].
      eexists _, (mkLst (committed s ++ numbered (length (committed s)) [b]) [] false).
      split; [reflexivity|]. split.
      { rewrite (lst_eta s) at 1. rewrite AU, AT. constructor. }
      rewrite E, AU, D1, D2. apply (fresh_PInv l'); [exact La|].
      intros i x N. destruct (lt_dec i (length (committed s))) as [Hi|Hi].
      + rewrite nth_error_app1 in N by auto. apply Q. rewrite nth_error_app1 by auto. exact N.
      + rewrite nth_error_app2 in N by lia. apply numbered_nth in N. rewrite N. f_equal. lia.
    - simpl in A. destruct (commit_ok p s count I) as (l & ws & E & L & D & P).
      unfold step, Ledger_Model.step. rewrite E. cbn [bind].
      destruct (P k) as (j & Hj & DJ).
      destruct (crash_ok js _ _ DJ A) as (d' & Ed & Dd). rewrite Ed. cbn [bind].
      destruct (restart_ok d' _ Dd) as (l' & El & Ll).
      rewrite El. cbn [bind].
      rewrite firstn_length in Hj. rewrite firstn_firstn, Nat.min_l in Ll by lia.
      eexists _, (mkLst (committed s ++ firstn j (uncommitted s)) [] false). split; [reflexivity|].
      split; [rewrite (lst_eta s) at 1; constructor; [lia|exact A]|].
      apply fresh_PInv; [exact Ll|].
      destruct I as (_ & _ & Q & _). intros i x N. apply Q.
      rewrite <- (firstn_skipn j (uncommitted s)), app_assoc, nth_error_app1; auto.
      apply nth_error_Some. congruence.
  Qed.

  Theorem run_sim os : forall p s, PInv p s -> all_allowed s os ->
    exists p' s', run p os = Ok p' /\ lsteps s os s' /\ PInv p' s'.
  Proof.
    induction os as [|o os IH]; intros p s I A.
    - exists p, s. repeat split; auto; try constructor; apply I.
    - destruct A as [A1 A2]. destruct (sim p s o I A1) as (p1 & s1 & E1 & S1 & I1).
      destruct (IH p1 s1 I1 (A2 s1 S1)) as (p2 & s2 & E2 & S2 & I2).
      exists p2, s2. split; [|split; [econstructor; eauto|exact I2]].
      cbn [Ledger_Model.run]. rewrite E1. exact E2.
  Qed.

  Lemma new_ok : exists p, new_ledger H B deser_log ser_tree = Ok p /\ PInv p lempty.
  Proof.
    assert (D : DInv empty_disk []).
    { split; [reflexivity|]. apply full_Part; reflexivity. }
    destruct (restart_ok empty_disk [] D) as (l & E & L). unfold new_ledger. rewrite E.
    cbn [bind]. eexists. split; [reflexivity|]. apply fresh_PInv; auto. intros [|i] x N; discriminate.
  Qed.

  (** Specification-level facts *)
  Lemma lstep_prefix (s : lst (B := B)) o s' : lstep s o s' -> exists r, committed s' = committed s ++ r.
  Proof.
    intros L. inversion L; subst; cbn [committed]; eauto; exists []; rewrite app_nil_r; reflexivity.
  Qed.
  Lemma lsteps_prefix (s : lst (B := B)) os s' : lsteps s os s' -> exists r, committed s' = committed s ++ r.
  Proof.
    intros L. induction L as [|s o s1 os s2 A L IH].
    - exists []. rewrite app_nil_r. reflexivity.
    - destruct IH as [r E]. destruct (lstep_prefix _ _ _ A) as [r' E']. rewrite E, E', <- app_assoc. eauto.
  Qed.
End Ledger.
