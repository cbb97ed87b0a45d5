(** Properties C07, C08, C09: the ledger across crashes, and its uncommitted part. *)
From Coq Require Import List Arith NArith Lia Bool.
From Verif Require Import Base Bits_Model Bits_Proofs Merkle_Spec Merkle_Model Merkle_Proofs Merkle_Store
  Merkle_Verify Merkle_Ledger Merkle_Props Ledger_Model Ledger_Spec Ledger_Proofs Ledger_Proofs2.
Import ListNotations.
Local Open Scope res_scope.

Lemma MTH_is_digest H D r : MTH H D r -> exists x, r = H x.
Proof. intros M. inversion M; eauto. Qed.

Section Props.
  Variable H : bytes -> bytes.
  Variable B : Type.
  Variable ser_log : txn B -> bytes.
  Variable deser_log : bytes -> txn B.
  Variable ser_tree : txn B -> bytes.

  (** The serializer of the log can be undone and never produces nothing; digests are
      not empty. *)
  Hypothesis deser_ser : forall x, deser_log (ser_log x) = x.
  Hypothesis ser_nonempty : forall x, ser_log x <> [].
  Hypothesis digest_nonempty : forall x, H x <> [].

  Notation new_ledger := (new_ledger H B deser_log ser_tree).
  Notation run := (run H B ser_log deser_log ser_tree).
  Notation getBySeqNo := (getBySeqNo B deser_log).
  Notation commitTxns := (commitTxns H B ser_log ser_tree).
  Notation restart := (restart H B deser_log ser_tree).
  Notation crash_restarts := (crash_restarts H B deser_log ser_tree).

  (** [p] shows, through its API, exactly the two-part list [s]. *)
  Definition Shows (p : pledger B) (s : lst (B := B)) : Prop :=
    let C := committed s in let U := uncommitted s in
    size (p_base p) = length C /\
    (exists r, ledger_root H (p_base p) = Ok r /\ MTH H (map ser_tree C) r) /\
    uncommitted_size p = length (C ++ U) /\
    (exists r, uncommitted_root_hash H B p = Ok r /\ MTH H (map ser_tree (C ++ U)) r) /\
    p_unc p = U /\
    (forall n, 1 <= n <= length C -> exists x, nth_error C (n - 1) = Some x /\ getBySeqNo (p_base p) n = Ok (Some x)) /\
    (forall n, n = 0 \/ length C < n -> getBySeqNo (p_base p) n = Err KeyError) /\
    (forall n, 1 <= n <= length (C ++ U) ->
       exists x, nth_error (C ++ U) (n - 1) = Some x /\ get_by_seq_no_uncommitted B deser_log p n = Ok (Some x)) /\
    (forall n, length (C ++ U) < n -> get_by_seq_no_uncommitted B deser_log p n = Err KeyError) /\
    (get_last_txn B deser_log p = Ok (last (map Some (C ++ U)) None)) /\
    (exists ts, mt_appends H (empty_tree, empty_store) (map ser_tree C) = Ok ts /\
       ts = (l_tree (p_base p), l_store (p_base p))) /\
    map (fun '(_, v) => deser_log v) (kv_iter (d_log (l_disk (p_base p)))) = C.

  Lemma map_deser L : map (fun '(_, v) => deser_log v) (kv_iter (dlist (map ser_log L))) = L.
  Proof.
    rewrite kv_iter_dlist. unfold dlist. generalize 1. induction L as [|x L IH]; intros s; [reflexivity|].
    cbn [map length seq combine]. rewrite deser_ser, IH. reflexivity.
  Qed.

  Lemma getBySeqNo_ok l C n : LInv H B ser_log ser_tree l C ->
    getBySeqNo l n = match n with 0 => Err KeyError
                     | S i => match nth_error C i with Some x => Ok (Some x) | None => Err KeyError end end.
  Proof.
    intros [_ G]. unfold Ledger_Model.getBySeqNo. rewrite G. destruct n as [|i].
    - rewrite kv_get_dlist0. reflexivity.
    - rewrite kv_get_dlist, nth_error_map. destruct (nth_error C i) as [x|]; [|reflexivity]. simpl.
      pose proof (ser_nonempty x). pose proof (deser_ser x) as DS. destruct (ser_log x); congruence.
  Qed.

  Lemma last_snoc_some {A} (l : list A) x : last (map Some (l ++ [x])) None = Some x.
  Proof. rewrite map_app. apply last_last. Qed.

  Lemma mt_unique ts lh leaves : MtOf H ts (map (hash_leaf H) leaves) -> lh = leaves ->
    mt_appends H (empty_tree, empty_store) lh = Ok ts.
  Proof.
    intros [M1 M2] ->. destruct (mt_appends_ok H leaves _ _ (MtOf_empty H)) as (ts' & E & [N1 N2]).
    simpl in N1, N2. rewrite E. f_equal. destruct ts as [[a b] [c d e]], ts' as [[a' b'] [c' d' e']].
    destruct M1, M2 as (? & ? & ?), N1, N2 as (? & ? & ?). cbn in *. subst. reflexivity.
  Qed.

  Lemma PInv_Shows p s : PInv H B ser_log ser_tree p s -> Shows p s.
  Proof.
    intros (LI & E & Q & D). set (C := committed s) in *. set (U := uncommitted s) in *.
    pose proof (size_ok _ _ _ _ _ _ LI) as ES. 
    assert (R : ledger_root H (p_base p) = Ok (mthh H (lhs H B ser_tree C))).
    { apply TreeOf_root. apply LI. }
    assert (LM : forall L, MTH H (map ser_tree L) (mthh H (lhs H B ser_tree L))).
    { intros L. unfold lhs. rewrite <- (map_map ser_tree (hash_leaf H)). apply mthh_MTH. }
    assert (UR : uncommitted_root_hash H B p = Ok (mthh H (lhs H B ser_tree (C ++ U)))).
    { unfold uncommitted_root_hash. destruct (touched s).
      - destruct D as (t & _ & _ & ->). destruct (MTH_is_digest _ _ _ (LM (C ++ U))) as [x Ex].
        assert (NE : mthh H (lhs H B ser_tree (C ++ U)) <> []) by (rewrite Ex; apply digest_nonempty).
        destruct (mthh H (lhs H B ser_tree (C ++ U))) eqn:EM; [congruence|reflexivity].
      - destruct D as (EU & _ & ->). rewrite EU, app_nil_r. exact R. }
    unfold Shows. cbv zeta. fold C U. split; [exact ES|]. split; [eauto|].
    split; [unfold uncommitted_size; rewrite ES, E, app_length; reflexivity|]. split; [eauto|].
    split; [exact E|]. split; [|split; [|split; [|split; [|split; [|split]]]]].
    - intros [|n] Hn; [lia|]. rewrite (getBySeqNo_ok _ _ _ LI). cbn [Nat.sub]. rewrite Nat.sub_0_r.
      destruct (nth_error C n) eqn:N; [eauto|]. apply nth_error_None in N. lia.
    - intros n Hn. rewrite (getBySeqNo_ok _ _ _ LI). destruct n; auto.
      destruct (nth_error C n) eqn:N; auto. assert (n < length C) by (apply nth_error_Some; congruence). lia.
    - intros n Hn. unfold get_by_seq_no_uncommitted, uncommitted_size. rewrite ES, E, <- app_length.
      destruct (Nat.ltb_spec (length (C ++ U)) n); [lia|]. destruct (Nat.ltb_spec (length C) n).
      + replace (n - length C - 1) with (n - 1 - length C) by lia.
        rewrite nth_error_app2 by lia. destruct (nth_error U (n - 1 - length C)) eqn:N; [eauto|].
        apply nth_error_None in N. rewrite app_length in *. lia.
      + rewrite nth_error_app1 by lia. rewrite (getBySeqNo_ok _ _ _ LI). destruct n as [|n]; [lia|].
        cbn [Nat.sub]. rewrite Nat.sub_0_r. destruct (nth_error C n) eqn:N; [eauto|]. apply nth_error_None in N. lia.
    - intros n Hn. unfold get_by_seq_no_uncommitted, uncommitted_size. rewrite ES, E, <- app_length.
      destruct (Nat.ltb_spec (length (C ++ U)) n); [reflexivity|lia].
    - unfold get_last_txn, get_last_committed_txn. rewrite E, ES. clear -LI deser_ser ser_nonempty.
      clearbody C U. destruct U as [|x U _] using rev_ind.
      + simpl rev. rewrite app_nil_r. destruct C as [|y C _] using rev_ind; [reflexivity|].
        rewrite last_snoc_some. rewrite app_length. simpl length. rewrite Nat.add_1_r. simpl (0 <? _). cbv iota.
        rewrite (getBySeqNo_ok _ _ _ LI). rewrite nth_error_app2, Nat.sub_diag by lia. reflexivity.
      + rewrite rev_app_distr. simpl. rewrite app_assoc, last_snoc_some. reflexivity.
    - exists (l_tree (p_base p), l_store (p_base p)). split; [|reflexivity].
      eapply mt_unique; [|reflexivity]. rewrite map_map. fold (lhs H B ser_tree C).
      destruct LI as [(T & L1 & L2 & L3 & L4) _]. split; [exact T|]. unfold StoreOf, l_store. cbn. auto.
    - destruct LI as [_ ->]. apply map_deser.
  Qed.

  (** ** C08: apply, commit and discard behave like a two-part list *)
  (** For every history of operations the specification allows, no call raises and the
      ledger shows a list reachable by the specification. *)
  Theorem C08_two_part_list : forall os, all_allowed lempty os ->
    exists p0 p s, new_ledger = Ok p0 /\ run p0 os = Ok p /\ lsteps lempty os s /\ Shows p s.
  Proof.
    intros os A. destruct (new_ok H B ser_log deser_log ser_tree deser_ser) as (p0 & E0 & I0).
    destruct (run_sim H B ser_log deser_log ser_tree deser_ser os p0 _ I0 A) as (p & s & E & S & I).
    exists p0, p, s. repeat split; auto; apply PInv_Shows; exact I.
  Qed.

  (** Discarding more than there is raises LogicError and changes nothing (the state
      is unchanged because no new one is produced). *)
  Theorem C08_discard_too_many : forall p k, length (p_unc p) < k ->
    discardTxns H B ser_tree p k = Err LogicError.
  Proof.
    intros p k Hk. unfold discardTxns. destruct (Nat.eqb_spec k 0); [lia|].
    destruct (Nat.ltb_spec (length (p_unc p)) k); [reflexivity|lia].
  Qed.

  (** Committed transactions never change: whatever a sequence number returns at some
      point of a history, it returns the same later. *)
  Theorem C08_committed_immutable : forall os os' p0 p p' n x,
    all_allowed lempty (os ++ os') -> new_ledger = Ok p0 -> run p0 os = Ok p -> run p os' = Ok p' ->
    getBySeqNo (p_base p) n = Ok (Some x) -> getBySeqNo (p_base p') n = Ok (Some x).
  Proof.
    intros os os' p0 p p' n x A E0 E1 E2 G.
    destruct (new_ok H B ser_log deser_log ser_tree deser_ser) as (q0 & F0 & I0).
    assert (q0 = p0) by congruence. subst q0.
    assert (A1 : forall s, lsteps lempty os s -> all_allowed s os').
    { clear -A. revert A. generalize (lempty (B := B)). induction os as [|o os IH]; intros s A s' L.
      - inversion L; subst. exact A.
      - inversion L; subst. destruct A as [_ A]. eapply IH; eauto. }
    assert (A0 : all_allowed lempty os).
    { clear -A. revert A. generalize (lempty (B := B)). induction os as [|o os IH]; intros s A; [exact I|].
      destruct A as [A1 A2]. split; auto. }
    destruct (run_sim H B ser_log deser_log ser_tree deser_ser os p0 _ I0 A0) as (q & s & F & St & I).
    assert (q = p) by congruence. subst q.
    destruct (run_sim H B ser_log deser_log ser_tree deser_ser os' p _ I (A1 s St)) as (q & s' & F' & S' & I').
    assert (q = p') by congruence. subst q.
    destruct (lsteps_prefix B _ _ _ S') as [r Er].
    destruct I as (LI & _), I' as (LI' & _).
    rewrite (getBySeqNo_ok _ _ _ LI) in G. rewrite (getBySeqNo_ok _ _ _ LI'). rewrite Er.
    destruct n as [|n]; [discriminate|]. destruct (nth_error (committed s) n) as [y|] eqn:N; [|discriminate].
    rewrite nth_error_app1 by (apply nth_error_Some; congruence). rewrite N. exact G.
  Qed.

  (** What commitTxns returns: the oldest transactions, their number range, and for each
      the root of the ledger up to it and an audit path the client-side verifier accepts. *)
  Theorem C08_commit_returns : forall os p0 p s count range pairs p' ws,
    all_allowed lempty os -> new_ledger = Ok p0 -> run p0 os = Ok p -> Shows p s ->
    count <= length (uncommitted s) ->
    commitTxns p count = Ok (range, pairs, p', ws) ->
    map fst pairs = firstn count (uncommitted s) /\
    range = (if count =? 0 then (length (committed s), length (committed s))
             else (length (committed s) + 1, size (p_base p'))) /\
    forall i x n root path, nth_error pairs i = Some (x, (n, root, path)) ->
      n = length (committed s) + i + 1 /\
      MTH H (map ser_tree (committed s ++ firstn (S i) (uncommitted s))) root /\
      verify_leaf_inclusion H (ser_tree x) (n - 1) path n root = Ok tt.
  Proof.
    intros os p0 p s0 count range pairs p' ws A E0 E1 Sh Hc EC.
    destruct (new_ok H B ser_log deser_log ser_tree deser_ser) as (q0 & F0 & I0).
    assert (q0 = p0) by congruence. subst q0.
    destruct (run_sim H B ser_log deser_log ser_tree deser_ser os p0 _ I0 A) as (q & s & F & St & I).
    assert (q = p) by congruence. subst q.
    pose proof (PInv_Shows p s I) as Sh'.
    assert (EC0 : committed s0 = committed s).
    { destruct Sh as (_ & _ & _ & _ & _ & _ & _ & _ & _ & _ & _ & X).
      destruct Sh' as (_ & _ & _ & _ & _ & _ & _ & _ & _ & _ & _ & Y). congruence. }
    assert (EU0 : uncommitted s0 = uncommitted s).
    { destruct Sh as (_ & _ & _ & _ & X & _). destruct Sh' as (_ & _ & _ & _ & Y & _). congruence. }
    rewrite EC0, EU0 in *. clear s0 Sh EC0 EU0.
    destruct (commit_ok H B ser_log ser_tree p s count I) as (l & ws' & E & L & D & _).
    rewrite E in EC. injection EC as <- <- <- <-.
    set (C := committed s) in *. set (U := uncommitted s) in *.
    assert (LF : length (firstn count U) = count) by (rewrite firstn_length; lia).
    assert (LI : length (infos H B ser_tree C (firstn count U)) = length (firstn count U))
      by (unfold infos; rewrite map_length, seq_length; reflexivity).
    split; [|split].
    - clear -LI. revert LI. generalize (infos H B ser_tree C (firstn count U)). generalize (firstn count U).
      induction l as [|a l IH]; intros [|b m] E; try discriminate; simpl; auto. f_equal. apply IH. simpl in E. lia.
    - replace (size _) with (length (C ++ firstn count U)).
      2:{ destruct (skipn count U); cbn [p_base]; symmetry; eapply size_ok; eauto. }
      rewrite app_length, LF. destruct count; [reflexivity|]. destruct U; [simpl in *; lia|]. reflexivity.
    - intros i x n root path N.
      assert (Ni : i < count).
      { rewrite <- LF, <- (Nat.min_id (length (firstn count U))). rewrite <- LI at 2.
        rewrite <- combine_length. apply nth_error_Some. congruence. }
      assert (N2 : nth_error U i = Some x /\ n = length C + S i /\
         root = mthh H (lhs H B ser_tree (C ++ firstn (S i) U)) /\
         path = rev (peaks H (lhs H B ser_tree (C ++ firstn i U)))).
      { revert N. 
        assert (NC : forall {X Y} (l : list X) (m : list Y) i x y, nth_error (combine l m) i = Some (x, y) ->
          nth_error l i = Some x /\ nth_error m i = Some y).
        { clear. induction l as [|a l IH]; intros [|b m] [|i] x y E; try discriminate; simpl in *.
          - injection E as <- <-. auto. - apply IH. exact E. }
        intros N. apply NC in N as [Na Nb]. split.
        - rewrite <- (firstn_skipn count U), nth_error_app1; auto. lia.
        - unfold infos in Nb. rewrite nth_error_map in Nb.
          assert (NS : nth_error (seq 0 (length (firstn count U))) i = Some i).
          { rewrite (nth_error_nth' _ 0) by (rewrite seq_length; lia). rewrite seq_nth by lia. reflexivity. }
          rewrite NS in Nb. simpl in Nb. injection Nb as <- <- <-.
          change (match firstn count U with [] => [] | a :: l => a :: firstn i l end) with (firstn (1 + i) (firstn count U)).
          rewrite !firstn_firstn, !Nat.min_l by lia. auto. }
      destruct N2 as (Nu & -> & -> & ->).
      split; [lia|]. 
      assert (EX : firstn (S i) U = firstn i U ++ [x]).
      { clear -Nu. revert i Nu. generalize U. induction U0 as [|u U0 IH]; intros [|i] N; try discriminate; simpl in N.
        - injection N as ->. reflexivity.
        - cbn [firstn app]. f_equal. apply IH. exact N. }
      split.
      { unfold lhs. rewrite <- (map_map ser_tree (hash_leaf H)). apply mthh_MTH. }
      rewrite EX, app_assoc.
      set (M := C ++ firstn i U). assert (LL : length M = length C + i).
      { unfold M. rewrite app_length, firstn_length. rewrite LF in Ni || idtac. lia. }
      replace (length C + S i) with (S (length M)) by lia.
      destruct (mt_appends_ok H (map ser_tree M) _ _ (MtOf_empty H)) as (ts & ET & MT).
      cbn [app] in MT.
      destruct (mt_append_ok H ts _ (ser_tree x) MT) as (ts' & EA & MA).
      destruct (C02_append_path_verifies H (map ser_tree M) ts (ser_tree x) _ ts' ET EA) as (root & R1 & _ & R3).
      rewrite map_map in R3. fold (lhs H B ser_tree M) in R3. rewrite map_length in R3.
      rewrite map_map in MA. fold (lhs H B ser_tree M) in MA.
      destruct MA as [TA _]. rewrite (TreeOf_root H _ _ TA) in R1. injection R1 as <-.
      rewrite Nat.sub_succ, Nat.sub_0_r. unfold lhs at 2. rewrite map_app. exact R3.
  Qed.

  (** ** C07: a ledger restarted after a crash equals its transaction log *)
  (** The transactions in a transaction log, in key order. *)
  Definition logged (d : disk) : list (txn B) := map (fun '(_, v) => deser_log v) (kv_iter (d_log d)).

  Definition Scratch (l : ledger) (L : list (txn B)) : Prop :=
    size l = length L /\ l_seqNo l = length L /\
    mt_appends H (empty_tree, empty_store) (map ser_tree L) = Ok (l_tree l, l_store l).

  Lemma LInv_Scratch l L : LInv H B ser_log ser_tree l L -> Scratch l L /\ logged (l_disk l) = L.
  Proof.
    intros LI. pose proof (size_ok _ _ _ _ _ _ LI). destruct LI as [(T & L1 & L2 & L3 & L4) G].
    split; [|unfold logged; rewrite G; apply map_deser]. split; [auto|]. split; [rewrite L2; apply lhs_length|].
    eapply mt_unique; [|reflexivity]. rewrite map_map. fold (lhs H B ser_tree L).
    split; [exact T|]. unfold StoreOf, l_store. cbn. auto.
  Qed.

  (** The process dies inside commitTxns after any [k] of its database writes; recoveries
      may die too ([js]: number of writes each of them made), but not exactly between the
      two resets of the hash store. Then the next start succeeds, keeps the log as it is,
      and gives exactly the tree, hash store and size that adding the logged transactions
      to an empty ledger gives. Nothing committed before is lost, and what is kept of the
      interrupted commit is a prefix of it. *)
  Theorem C07_crash_in_commit : forall os p0 p count k js range pairs p' ws,
    all_allowed lempty os -> new_ledger = Ok p0 -> run p0 os = Ok p ->
    commitTxns p count = Ok (range, pairs, p', ws) -> ~ In 1 js ->
    exists d l j, crash_restarts (apply_writes (l_disk (p_base p)) (firstn k ws)) js = Ok d /\
      restart d = Ok l /\ logged d = logged (l_disk l) /\ Scratch l (logged d) /\
      j <= count /\ logged d = logged (l_disk (p_base p)) ++ firstn j (p_unc p).
  Proof.
    intros os p0 p count k js range pairs p' ws A E0 E1 EC NJ.
    destruct (new_ok H B ser_log deser_log ser_tree deser_ser) as (q0 & F0 & I0).
    assert (q0 = p0) by congruence. subst q0.
    destruct (run_sim H B ser_log deser_log ser_tree deser_ser os p0 _ I0 A) as (q & s & F & St & I).
    assert (q = p) by congruence. subst q.
    destruct (commit_ok H B ser_log ser_tree p s count I) as (l0 & ws' & E & L & D & P).
    rewrite E in EC. injection EC as _ _ _ <-.
    destruct (P k) as (j & Hj & DJ).
    destruct (crash_ok H B ser_log deser_log ser_tree deser_ser js _ _ DJ NJ) as (d' & Ed & Dd).
    destruct (restart_ok H B ser_log deser_log ser_tree deser_ser d' _ Dd) as (l' & El & Ll).
    destruct (LInv_Scratch _ _ Ll) as [Sc Lg].
    assert (LD : logged d' = committed s ++ firstn j (firstn count (uncommitted s))).
    { unfold logged. destruct Dd as [-> _]. apply map_deser. }
    exists d', l', j. rewrite LD, Lg. repeat split; auto; try apply Sc.
    - rewrite firstn_length in Hj. lia.
    - destruct I as ([_ G] & -> & _). unfold logged. rewrite G, map_deser.
      rewrite firstn_length in Hj. rewrite firstn_firstn, Nat.min_l by lia. reflexivity.
  Qed.

  (** The same for a direct [add] (genesis transactions, catchup): after a crash at any
      write the transaction is either there or not, and everything else is unaffected. *)
  Theorem C07_crash_in_add : forall os p0 p body k js mi p' ws,
    all_allowed lempty os -> new_ledger = Ok p0 -> run p0 os = Ok p ->
    p_add H B ser_log ser_tree p (mkTxn body None) = Ok (mi, p', ws) -> ~ In 1 js ->
    exists d l, crash_restarts (apply_writes (l_disk (p_base p)) (firstn k ws)) js = Ok d /\
      restart d = Ok l /\ logged d = logged (l_disk l) /\ Scratch l (logged d) /\
      logged d = logged (l_disk (p_base p)) ++
                 (if k =? 0 then [] else [mkTxn body (Some (S (size (p_base p))))]).
  Proof.
    intros os p0 p body k js mi p' ws A E0 E1 EC NJ.
    destruct (new_ok H B ser_log deser_log ser_tree deser_ser) as (q0 & F0 & I0).
    assert (q0 = p0) by congruence. subst q0.
    destruct (run_sim H B ser_log deser_log ser_tree deser_ser os p0 _ I0 A) as (q & s & F & St & I).
    assert (q = p) by congruence. subst q.
    destruct I as (LI & _). unfold p_add in EC. cbn [t_seq t_body] in EC.
    pose proof (size_ok _ _ _ _ _ _ LI) as ES.
    assert (EN : l_seqNo (p_base p) + 1 = S (size (p_base p))).
    { destruct LI as [(_ & _ & -> & _) _]. rewrite ES, lhs_length. lia. }
    rewrite EN in EC.
    destruct (base_add_ok H B ser_log ser_tree (p_base p) (committed s) (mkTxn body (Some (S (size (p_base p))))) LI)
      as (l1 & ws1 & Ea & La & _ & P).
    rewrite Ea in EC. cbn [bind] in EC. injection EC as _ _ <-. specialize (P k).
    destruct (crash_ok H B ser_log deser_log ser_tree deser_ser js _ _ P NJ) as (d' & Ed & Dd).
    destruct (restart_ok H B ser_log deser_log ser_tree deser_ser d' _ Dd) as (l' & El & Ll).
    destruct (LInv_Scratch _ _ Ll) as [Sc Lg].
    assert (LD : logged d' = if k =? 0 then committed s else committed s ++ [mkTxn body (Some (S (size (p_base p))))]).
    { unfold logged. destruct Dd as [-> _]. apply map_deser. }
    exists d', l'. rewrite LD, Lg. repeat split; auto; try apply Sc.
    destruct LI as [_ G]. unfold logged. rewrite G, map_deser. destruct (k =? 0); [rewrite app_nil_r|]; reflexivity.
  Qed.

  (** A plain restart (nothing in flight) changes nothing and writes nothing. *)
  Theorem C07_clean_restart : forall os p0 p, all_allowed lempty os -> new_ledger = Ok p0 -> run p0 os = Ok p ->
    1 <= size (p_base p) ->
    recoverTree H B deser_log ser_tree (l_disk (p_base p)) = Ok (p_base p, []).
  Proof.
    intros os p0 p A E0 E1 Hs.
    destruct (new_ok H B ser_log deser_log ser_tree deser_ser) as (q0 & F0 & I0).
    assert (q0 = p0) by congruence. subst q0.
    destruct (run_sim H B ser_log deser_log ser_tree deser_ser os p0 _ I0 A) as (q & s & F & St & I).
    assert (q = p) by congruence. subst q. destruct I as (LI & _).
    apply (recover_full H B ser_log deser_log ser_tree _ _ LI). rewrite (size_ok _ _ _ _ _ _ LI) in Hs. exact Hs.
  Qed.

  (** ** C09: sequence numbers *)
  (** In every reachable state, the transaction found under number [n] carries number [n],
      and the numbers in use are exactly 1..uncommitted_size. *)
  Theorem C09_numbering : forall os p0 p, all_allowed lempty os -> new_ledger = Ok p0 -> run p0 os = Ok p ->
    forall n, 1 <= n <= uncommitted_size p ->
      exists x, get_by_seq_no_uncommitted B deser_log p n = Ok (Some x) /\ t_seq x = Some n /\
        (n <= size (p_base p) -> getBySeqNo (p_base p) n = Ok (Some x)).
  Proof.
    intros os p0 p A E0 E1 n Hn.
    destruct (new_ok H B ser_log deser_log ser_tree deser_ser) as (q0 & F0 & I0).
    assert (q0 = p0) by congruence. subst q0.
    destruct (run_sim H B ser_log deser_log ser_tree deser_ser os p0 _ I0 A) as (q & s & F & St & I).
    assert (q = p) by congruence. subst q.
    destruct (PInv_Shows p s I) as (S1 & _ & S3 & _ & _ & S6 & _ & S8 & _).
    destruct (S8 n) as (x & N & G); [lia|]. exists x. split; [exact G|]. split.
    - destruct I as (_ & _ & Q & _). rewrite (Q _ _ N). f_equal. lia.
    - intros Hs. destruct (S6 n) as (y & N' & G'); [lia|]. rewrite G'. do 2 f_equal.
      rewrite nth_error_app1 in N by lia. congruence.
  Qed.

  (** The number under which an uncommitted transaction is visible is the number it has
      after being committed. *)
  Theorem C09_number_kept_by_commit : forall os p0 p n x count range pairs p' ws,
    all_allowed lempty os -> new_ledger = Ok p0 -> run p0 os = Ok p ->
    get_by_seq_no_uncommitted B deser_log p n = Ok (Some x) -> n <= size (p_base p) + count ->
    commitTxns p count = Ok (range, pairs, p', ws) ->
    getBySeqNo (p_base p') n = Ok (Some x).
  Proof.
    intros os p0 p n x count range pairs p' ws A E0 E1 G Hn EC.
    destruct (new_ok H B ser_log deser_log ser_tree deser_ser) as (q0 & F0 & I0).
    assert (q0 = p0) by congruence. subst q0.
    destruct (run_sim H B ser_log deser_log ser_tree deser_ser os p0 _ I0 A) as (q & s & F & St & I).
    assert (q = p) by congruence. subst q.
    destruct (PInv_Shows p s I) as (S1 & _ & S3 & _ & _ & S6 & S7 & S8 & S9 & _).
    destruct (commit_ok H B ser_log ser_tree p s count I) as (l & ws' & E & L & D & _).
    rewrite E in EC. injection EC as _ _ <- _.
    assert (p_base (match skipn count (uncommitted s) with
       | [] => mkP l [] None None | _ :: _ => mkP l (skipn count (uncommitted s)) (p_uncRoot p) (p_uncTree p) end) = l) as ->
      by (destruct (skipn count (uncommitted s)); reflexivity).
    rewrite (getBySeqNo_ok _ _ _ L). destruct n as [|n].
    { destruct I as (LI & _). unfold get_by_seq_no_uncommitted in G.
      change (uncommitted_size p <? 0) with false in G. change (size (p_base p) <? 0) with false in G. cbv iota in G.
      rewrite (getBySeqNo_ok _ _ _ LI) in G. discriminate. }
    destruct (le_lt_dec (S n) (length (committed s ++ uncommitted s))) as [Hl|Hl].
    2:{ rewrite (S9 _ Hl) in G. discriminate. }
    destruct (S8 (S n)) as (y & N & G'); [lia|]. rewrite G in G'. injection G' as <-.
    rewrite Nat.sub_succ, Nat.sub_0_r in N.
    rewrite <- (firstn_skipn count (uncommitted s)), app_assoc, nth_error_app1 in N.
    - rewrite N. reflexivity.
    - rewrite app_length, firstn_length. rewrite app_length in Hl. lia.
  Qed.
End Props.

(** ** Concrete instances *)
(** Transactions with one-byte bodies. *)
Definition ser1 (x : txn N) : bytes := [t_body x; match t_seq x with Some n => N.of_nat (S n) | None => 0%N end].
Definition deser1 (b : bytes) : txn N :=
  match b with
  | [x; y] => mkTxn x (if (y =? 0)%N then None else Some (N.to_nat y - 1))
  | _ => mkTxn 0%N None
  end.
Example ser1_ok : forall x, deser1 (ser1 x) = x.
Proof.
  intros [b [n|]]; unfold ser1, deser1; cbn [t_body t_seq]; [|reflexivity].
  destruct (N.eqb_spec (N.of_nat (S n)) 0); [lia|]. do 2 f_equal. lia.
Qed.
Example ser1_nonempty : forall x, ser1 x <> [].
Proof. discriminate. Qed.
Example toyH_nonempty : forall x, toyH x <> [].
Proof. discriminate. Qed.

(** A history with applies, commits, discards, a crash in the middle of a commit, a crash
    in the recovery, and more work afterwards. *)
Definition ex_ops : list (op N) :=
  [OAdd 9%N; OApply [1; 2; 3]%N; OApply [4; 5]%N; OCommit 3; ODiscard 1; OApply [6; 7; 8]%N;
   OCrash 4 6 [0; 3; 7]; OApply [10]%N; OApply []; OCommit 1; OReset; OAdd 11%N].

Lemma lstep_discard_inv {B} (c w : list (txn B)) t k s' : lstep (mkLst c w t) (ODiscard (S k)) s' ->
  s' = mkLst c (firstn (length w - S k) w) (still t (firstn (length w - S k) w)).
Proof.
  intros L. inversion L as [| | |c0 u v t0 Hv E1 E2 E3| | |]; subst.
  replace (length (u ++ v) - length v) with (length u) by (rewrite app_length; lia).
  rewrite firstn_app, firstn_all, Nat.sub_diag. cbn [firstn]. rewrite app_nil_r. reflexivity.
Qed.

(** The history is one the theorems are about. *)
Example ex_allowed : all_allowed lempty ex_ops.
Proof.
  unfold ex_ops, lempty.
  repeat match goal with
  | |- True => exact I
  | |- all_allowed _ (_ :: _) => split
  | |- all_allowed _ [] => exact I
  | |- allowed _ _ => cbn; repeat split; try lia; intuition lia
  | |- forall s', lstep _ (ODiscard _) s' -> _ => intros s' L; apply lstep_discard_inv in L; subst s'; cbn [committed uncommitted touched still length firstn skipn app numbered Nat.sub Nat.add]
  | |- forall s', lstep _ _ s' -> _ => intros s' L; inversion L; subst; clear L; cbn [committed uncommitted touched still length firstn skipn app numbered Nat.add]
  end.
Qed.

Example ex_C07_C08_C09 :
  match new_ledger toyH N deser1 ser1 with
  | Ok p0 => match run toyH N ser1 deser1 ser1 p0 ex_ops with
             | Ok p => logged N deser1 (l_disk (p_base p)) =
                 [mkTxn 9%N (Some 1); mkTxn 1%N (Some 2); mkTxn 2%N (Some 3); mkTxn 3%N (Some 4);
                  mkTxn 4%N (Some 5); mkTxn 6%N (Some 6); mkTxn 7%N (Some 7); mkTxn 10%N (Some 8); mkTxn 11%N (Some 9)]
                 /\ p_unc p = [] /\ size (p_base p) = 9
             | Err _ => False
             end
  | Err _ => False
  end.
Proof. vm_compute. auto. Qed.

(** ** What does not hold *)
(** A recovery that dies between the two resets of the hash store (nodes dropped, leaf
    hashes still there) leaves a ledger that can never be started again: reading a dropped
    node gives None, hashing it raises TypeError, which recoverTree does not catch. Here:
    four committed transactions, a crash in the commit of the fifth, a crash in the
    recovery, and then every start fails. *)
Theorem C07_crash_between_resets_refuted :
  exists p0 p range pairs p' ws d,
    new_ledger toyH N deser1 ser1 = Ok p0 /\
    run toyH N ser1 deser1 ser1 p0 [OApply [1; 2; 3; 4; 5]%N; OCommit 4] = Ok p /\
    commitTxns toyH N ser1 ser1 p 1 = Ok (range, pairs, p', ws) /\
    crash_restarts toyH N deser1 ser1 (apply_writes (l_disk (p_base p)) (firstn 1 ws)) [1] = Ok d /\
    restart toyH N deser1 ser1 d = Err TypeError.
Proof. do 7 eexists. do 4 (split; [vm_compute; reflexivity|]). vm_compute; reflexivity. Qed.

(** A direct [add] while transactions are uncommitted: the uncommitted root is stale and
    two transactions carry the same number. *)
Theorem C08_add_while_uncommitted_refuted :
  exists p0 p r r', new_ledger toyH N deser1 ser1 = Ok p0 /\
    run toyH N ser1 deser1 ser1 p0 [OApply [1]%N; OAdd 2%N] = Ok p /\
    logged N deser1 (l_disk (p_base p)) = [mkTxn 2%N (Some 1)] /\ p_unc p = [mkTxn 1%N (Some 1)] /\
    uncommitted_root_hash toyH N p = Ok r /\
    MTH toyH (map ser1 [mkTxn 2%N (Some 1); mkTxn 1%N (Some 1)]) r' /\ r <> r'.
Proof.
  do 3 eexists. exists (mthh toyH (map (hash_leaf toyH) (map ser1 [mkTxn 2%N (Some 1); mkTxn 1%N (Some 1)]))).
  split; [vm_compute; reflexivity|]. split; [vm_compute; reflexivity|]. split; [vm_compute; reflexivity|].
  split; [vm_compute; reflexivity|]. split; [vm_compute; reflexivity|]. split; [apply mthh_MTH|].
  vm_compute. congruence.
Qed.

(** commitTxns(count) with a count above the number of uncommitted transactions commits
    what there is but reports a range of [count] numbers. *)
Theorem C08_commit_range_refuted :
  exists p0 p range pairs p' ws, new_ledger toyH N deser1 ser1 = Ok p0 /\
    run toyH N ser1 deser1 ser1 p0 [OApply [1]%N] = Ok p /\
    commitTxns toyH N ser1 ser1 p 3 = Ok (range, pairs, p', ws) /\
    range = (1, 3) /\ size (p_base p') = 1.
Proof. do 6 eexists. do 4 (split; [vm_compute; reflexivity|]). vm_compute; reflexivity. Qed.

Print Assumptions C07_crash_in_commit.
Print Assumptions C07_crash_in_add.
Print Assumptions C07_clean_restart.
Print Assumptions C07_crash_between_resets_refuted.
Print Assumptions C08_two_part_list.
Print Assumptions C08_discard_too_many.
Print Assumptions C08_committed_immutable.
Print Assumptions C08_commit_returns.
Print Assumptions C08_add_while_uncommitted_refuted.
Print Assumptions C08_commit_range_refuted.
Print Assumptions C09_numbering.
Print Assumptions C09_number_kept_by_commit.
