(** C70: replies that have a transaction. *)
From Coq Require Import List Arith NArith Lia Bool.
From Verif Require Import Base Bits_Model Bits_Proofs Merkle_Spec Merkle_Model Merkle_Proofs Merkle_Store
  Merkle_Verify Merkle_Ledger Merkle_Props Ledger_Model Ledger_Spec Ledger_Proofs Ledger_Proofs2 Ledger_Props Reply_Model.
Import ListNotations.
Local Open Scope res_scope.

(** ** A path proves that the leaf is in the tree, whatever size and index are claimed *)
Section Member.
  Variable H : bytes -> bytes.
  Hypothesis HL : FixedLength H.

  Definition climb (h : bytes) (s : bool * bytes) : bytes :=
    if fst s then hash_children H (snd s) h else hash_children H h (snd s).
  Lemma calc_climb : forall f i last P h r, calc_root H f i last P h = Ok r -> exists ss, r = fold_left climb ss h.
  Proof.
    induction f as [|f IH]; intros i last P h r; [discriminate|]. cbn [calc_root].
    destruct (0 <? last).
    - destruct P as [|a P]; [discriminate|]. destruct (Nat.odd i).
      + intros E. destruct (IH _ _ _ _ _ E) as [ss ->]. exists ((true, a) :: ss). reflexivity.
      + destruct (i <? last); intros E; destruct (IH _ _ _ _ _ E) as [ss ->]; [exists ((false, a) :: ss)|exists ss]; reflexivity.
    - destruct P; [|discriminate]. intros E. injection E as <-. exists []. reflexivity.
  Qed.
  Lemma climb_len ss : forall h, length h = dlen H -> length (fold_left climb ss h) = dlen H.
  Proof.
    induction ss as [|s ss IH]; intros h L; [exact L|]. cbn [fold_left]. apply IH.
    unfold climb. destruct (fst s); apply (H_len H HL).
  Qed.
  Lemma climb_sound : forall n D leaf ss, length D = n -> fold_left climb ss (hash_leaf H leaf) = mthh H (map (hash_leaf H) D) ->
    (exists c, Collision H c) \/ In leaf D.
  Proof.
    induction n as [n IH] using lt_wf_ind. intros D leaf ss Hn E.
    assert (Leaf : forall x y, hash_leaf H x = hash_leaf H y -> (exists c, Collision H c) \/ x = y).
    { intros x y Q. destruct (H_inj_dec H _ _ Q) as [[c C]|Q']; [left; eauto|right]. congruence. }
    assert (Node : forall a b x, H (1%N :: a ++ b) = H x -> (forall y, x <> 1%N :: y) -> exists c, Collision H c).
    { intros a b x Q Nx. exists (1%N :: a ++ b, x). split; [cbn; intros X; exact (Nx _ (eq_sym X))|exact Q]. }
    destruct (le_lt_dec 2 (length D)) as [L2|L2].
    - assert (Lt : exists k, length (firstn k D) < n /\ length (skipn k D) < n /\
        fold_left climb ss (hash_leaf H leaf) = hash_children H (mthh H (map (hash_leaf H) (firstn k D))) (mthh H (map (hash_leaf H) (skipn k D)))).
      { pose proof (split_bounds (length D) L2) as SB. pose proof (pow2_pos (Nat.log2 (length D - 1))) as PP.
        exists (2 ^ Nat.log2 (length D - 1)). rewrite firstn_length, skipn_length. split; [lia|]. split; [lia|].
        rewrite E, (mthh_split H) by (rewrite map_length; exact L2). cbv zeta. rewrite map_length, <- firstn_map, <- skipn_map. reflexivity. }
      destruct Lt as (k & Lt1 & Lt2 & E'). rename E into E0. rename E' into E. pose proof (conj Lt1 Lt2) as Lt.
      destruct ss as [|[sd a] ss _] using rev_ind.
      + cbn [fold_left] in E. left. symmetry in E. unfold hash_children, hash_leaf in E.
        eapply Node; [exact E|]. intros y X. discriminate X.
      + rewrite fold_left_app in E. cbn [fold_left] in E. unfold climb at 1 in E. cbn [fst snd] in E.
        assert (La : length (fold_left climb ss (hash_leaf H leaf)) = dlen H) by (apply climb_len, (leaf_len H HL)).
        destruct sd.
        * apply (children_inj H) in E; [|right; rewrite La, (mthh_len H HL); [reflexivity|apply (AllLen_leaves H HL)]].
          destruct E as [[c C']|[_ E]]; [left; eauto|].
          destruct (IH _ (proj2 Lt) (skipn k D) leaf ss eq_refl E) as [Q|Q]; [left; exact Q|right].
          rewrite <- (firstn_skipn k D). apply in_or_app. auto.
        * apply (children_inj H) in E; [|left; rewrite La, (mthh_len H HL); [reflexivity|apply (AllLen_leaves H HL)]].
          destruct E as [[c C']|[E _]]; [left; eauto|].
          destruct (IH _ (proj1 Lt) (firstn k D) leaf ss eq_refl E) as [Q|Q]; [left; exact Q|right].
          rewrite <- (firstn_skipn k D). apply in_or_app. auto.
    - destruct D as [|d [|d' D]]; [| |cbn in L2; lia].
      + left. cbn [map] in E. rewrite mthh_nil in E. destruct ss as [|[sd a] ss _] using rev_ind.
        * exists (0%N :: leaf, []). split; [discriminate|exact E].
        * rewrite fold_left_app in E. cbn [fold_left] in E. unfold climb at 1 in E. cbn [fst snd] in E.
          destruct sd; eapply Node; try exact E; discriminate.
      + cbn [map] in E. rewrite mthh_one in E. destruct ss as [|[sd a] ss _] using rev_ind.
        * destruct (Leaf _ _ E) as [Q|Q]; [left; exact Q|right; left; congruence].
        * left. rewrite fold_left_app in E. cbn [fold_left] in E. unfold climb at 1 in E. cbn [fst snd] in E.
          destruct sd; eapply Node; try exact E; discriminate.
  Qed.
End Member.

Section Props.
  Variable H : bytes -> bytes.
  Variable B : Type.
  Variable ser_log : txn B -> bytes.
  Variable deser_log : bytes -> txn B.
  Variable ser_tree : txn B -> bytes.
  Variables (payload_digest digest : B -> nat) (has_req_id : B -> bool).
  Hypothesis deser_ser : forall x, deser_log (ser_log x) = x.
  Hypothesis ser_nonempty : forall x, ser_log x <> [].

  Notation new_ledger := (new_ledger H B deser_log ser_tree).
  Notation getBySeqNo := (getBySeqNo B deser_log).
  Notation step := (step H B ser_log deser_log ser_tree payload_digest digest has_req_id).
  Notation run := (run H B ser_log deser_log ser_tree payload_digest digest has_req_id).
  Notation getReply := (getReplyFromLedger H B deser_log).
  Notation forRequest := (getReplyFromLedgerForRequest H B deser_log).
  Notation get_txn := (get_txn H B deser_log).
  Notation LInv := (LInv H B ser_log ser_tree).
  Notation PInv := (PInv H B ser_log ser_tree).

  (** ** What is meant *)
  (** What happens to the ledger. *)
  Definition ops1 (e : event B) : list (op B) :=
    match e with EOp o => [o] | EBatch k _ => [OCommit k] | ECaught b => [OAdd b] | _ => [] end.
  Definition ops (es : list (event B)) : list (op B) := flat_map ops1 es.
  (** The ledger has exactly the transactions [D]. *)
  Definition contents (l : ledger) (D : list (txn B)) : Prop :=
    size l = length D /\ forall i, i < length D -> getBySeqNo l (S i) = Ok (nth_error D i).
  (** Reachable nodes. *)
  Definition reached (es : list (event B)) (n : node B) : Prop :=
    exists p0 o, new_ledger = Ok p0 /\ run (start p0) es = Ok (n, o) /\ all_allowed lempty (ops es).

  (** ** Invariant *)
  Definition Idx (n : node B) (C : list (txn B)) : Prop :=
    (forall d s, In (d, s) (n_payload n) -> exists i x, s = Some (S i) /\ nth_error C i = Some x /\ payload_digest (t_body x) = d) /\
    (forall d, In d (n_full n) -> exists x, In x C /\ digest (t_body x) = d).
  Definition Inv (n : node B) (s : lst (B := B)) : Prop := PInv (n_p n) s /\ Idx n (committed s).

  Lemma Idx_grow n C C' : Idx n C -> Idx n (C ++ C').
  Proof.
    intros [A F]. split.
    - intros d s Hi. destruct (A d s Hi) as (i & x & -> & N & E). exists i, x. split; [reflexivity|]. split; [|exact E].
      rewrite nth_error_app1 by (apply nth_error_Some; congruence). exact N.
    - intros d Hi. destruct (F d Hi) as (x & Hx & E). exists x. split; [apply in_or_app; auto|exact E].
  Qed.
  Lemma add_payload txns : forall l d s, In (d, s) (fold_left (fun d x => (payload_digest (t_body x), t_seq x) :: d) txns l) ->
    In (d, s) l \/ exists x, In x txns /\ d = payload_digest (t_body x) /\ s = t_seq x.
  Proof.
    induction txns as [|y txns IH]; intros l d s Hi; [auto|]. cbn [fold_left] in Hi.
    destruct (IH _ _ _ Hi) as [[E|E]|(x & Hx & E)]; [|auto|].
    - injection E as <- <-. right. exists y. split; [left; reflexivity|auto].
    - right. exists x. split; [right; exact Hx|exact E].
  Qed.
  Lemma add_full txns : forall l d, In d (fold_left (fun d x => digest (t_body x) :: d) txns l) ->
    In d l \/ exists x, In x txns /\ d = digest (t_body x).
  Proof.
    induction txns as [|y txns IH]; intros l d Hi; [auto|]. cbn [fold_left] in Hi.
    destruct (IH _ _ Hi) as [[E|E]|(x & Hx & E)]; [|auto|].
    - right. exists y. split; [left; reflexivity|auto].
    - right. exists x. split; [right; exact Hx|exact E].
  Qed.
  Lemma add_keep txns : forall l a, In a l -> In a (fold_left (fun d x => (payload_digest (t_body x), t_seq x) :: d) txns l).
  Proof. induction txns as [|y txns IH]; intros l a Hi; [exact Hi|]. cbn [fold_left]. apply IH. right. exact Hi. Qed.
  Lemma add_keep' txns : forall l a, In a l -> In a (fold_left (fun d x => digest (t_body x) :: d) txns l).
  Proof. induction txns as [|y txns IH]; intros l a Hi; [exact Hi|]. cbn [fold_left]. apply IH. right. exact Hi. Qed.
  Lemma add_in txns x : forall l, In x txns -> In (payload_digest (t_body x), t_seq x)
    (fold_left (fun d x => (payload_digest (t_body x), t_seq x) :: d) txns l).
  Proof.
    induction txns as [|y txns IH]; intros l []; cbn [fold_left]; [subst y; apply add_keep; left; reflexivity|apply IH; auto].
  Qed.
  Lemma add_in' txns x : forall l, In x txns -> In (digest (t_body x)) (fold_left (fun d x => digest (t_body x) :: d) txns l).
  Proof.
    induction txns as [|y txns IH]; intros l []; cbn [fold_left]; [subst y; apply add_keep'; left; reflexivity|apply IH; auto].
  Qed.

  Lemma Idx_update n txns C : Idx n C ->
    (forall x, In x txns -> exists i, t_seq x = Some (S i) /\ nth_error C i = Some x) ->
    Idx (updateSeqNoMap B payload_digest digest has_req_id txns n) C.
  Proof.
    intros [A F] T. unfold updateSeqNoMap. destruct (forallb _ _); [|split; assumption]. split; cbn [n_payload n_full add_batch].
    - intros d s Hi. apply add_payload in Hi as [Hi|(x & Hx & -> & ->)]; [auto|].
      destruct (T x Hx) as (i & E & N). exists i, x. auto.
    - intros d Hi. apply add_full in Hi as [Hi|(x & Hx & ->)]; [auto|].
      destruct (T x Hx) as (i & _ & N). exists x. split; [eapply nth_error_In; eauto|reflexivity].
  Qed.
  Lemma update_p txns n : n_p (updateSeqNoMap B payload_digest digest has_req_id txns n) = n_p n.
  Proof. unfold updateSeqNoMap. destruct (forallb _ _); reflexivity. Qed.

  Lemma update_audit txns n : n_audit (updateSeqNoMap B payload_digest digest has_req_id txns n) = n_audit n.
  Proof. unfold updateSeqNoMap. destruct (forallb _ _); reflexivity. Qed.

  Lemma infos_length C txns : length (infos H B ser_tree C txns) = length txns.
  Proof. unfold infos. rewrite map_length, seq_length. reflexivity. Qed.
  Lemma map_fst_combine {X Y} (l : list X) : forall (m : list Y), length m = length l -> map fst (combine l m) = l.
  Proof. induction l as [|a l IH]; intros [|b m] E; try discriminate; cbn; [reflexivity|]. f_equal. apply IH. cbn in E. lia. Qed.

  Lemma batch_facts p s k : PInv p s -> exists l ws range,
    let U := firstn k (uncommitted s) in let p' := match skipn k (uncommitted s) with
      | [] => mkP l [] None None | _ => mkP l (skipn k (uncommitted s)) (p_uncRoot p) (p_uncTree p) end in
    commitTxns H B ser_log ser_tree p k = Ok (range, combine U (infos H B ser_tree (committed s) U), p', ws) /\
    let s' := mkLst (committed s ++ U) (skipn k (uncommitted s)) (still (touched s) (skipn k (uncommitted s))) in
    lstep s (OCommit k) s' /\ PInv p' s'.
  Proof.
    intros I. destruct (commit_ok H B ser_log ser_tree p s k I) as (l & ws & E & _).
    eexists l, ws, _. cbv zeta. split; [exact E|].
    destruct (sim H B ser_log deser_log ser_tree deser_ser p s (OCommit k) I Logic.I) as (p1 & s1 & E1 & L1 & I1).
    unfold Ledger_Model.step in E1. rewrite E in E1. cbn [bind] in E1. injection E1 as <-.
    inversion L1; subst. cbn [committed uncommitted touched] in *. split; [exact L1|exact I1].
  Qed.

  Lemma step_inv n s e n' o : Inv n s -> (forall q, In q (ops1 e) -> allowed s q) -> step n e = Ok (n', o) ->
    exists s', lsteps s (ops1 e) s' /\ Inv n' s'.
  Proof.
    intros [I X] A. destruct e as [q|k r|b|r|m]; cbn [Reply_Model.step ops1] in *.
    - destruct (sim H B ser_log deser_log ser_tree deser_ser (n_p n) s q I (A q (or_introl eq_refl))) as (p1 & s1 & E1 & L1 & I1).
      rewrite E1. cbn [bind]. intros E. injection E as <- <-. exists s1.
      assert (L : lsteps s [q] s1) by (econstructor; [exact L1|constructor]).
      split; [exact L|]. split; [exact I1|]. destruct (lsteps_prefix B _ _ _ L) as [z ->]. apply (Idx_grow n). exact X.
    - destruct (batch_facts (n_p n) s k I) as (l & ws & range & E1 & L1 & I1). cbv zeta in *.
      rewrite E1. cbn [bind]. intros E. injection E as <- <-.
      eexists. split; [econstructor; [exact L1|constructor]|]. split; [rewrite update_p; exact I1|].
      rewrite map_fst_combine by apply infos_length.
      apply Idx_update; [apply (Idx_grow n); exact X|].
      intros x Hx. destruct I1 as (_ & _ & Q & _). apply In_nth_error in Hx as [i Ni].
      exists (length (committed s) + i). cbn [committed].
      assert (N : nth_error (committed s ++ firstn k (uncommitted s)) (length (committed s) + i) = Some x).
      { rewrite nth_error_app2 by lia. rewrite Nat.add_comm, Nat.add_sub. exact Ni. }
      split; [|exact N].
      assert (N' : nth_error ((committed s ++ firstn k (uncommitted s)) ++ skipn k (uncommitted s)) (length (committed s) + i) = Some x).
      { rewrite nth_error_app1 by (apply nth_error_Some; congruence). exact N. }
      rewrite (Q _ _ N'). reflexivity.
    - destruct (sim H B ser_log deser_log ser_tree deser_ser (n_p n) s (OAdd b) I (A _ (or_introl eq_refl))) as (p1 & s1 & E1 & L1 & I1).
      cbn [Ledger_Model.step] in E1. destruct (p_add H B ser_log ser_tree (n_p n) (mkTxn b None)) as [[[mi p'] ws]|]; cbn [bind] in *; [|discriminate].
      injection E1 as <-. intros E. injection E as <- <-. exists s1.
      assert (L : lsteps s [OAdd b] s1) by (econstructor; [exact L1|constructor]).
      split; [exact L|]. split; [rewrite update_p; exact I1|].
      inversion L1; subst. cbn [committed uncommitted] in *.
      apply Idx_update; [apply (Idx_grow n); exact X|].
      intros x [<-|[]]. exists (length c). destruct I1 as (LI & _). cbn [committed] in LI.
      pose proof (size_ok _ _ _ _ _ _ LI) as Sz. rewrite app_length in Sz. cbn [numbered length] in Sz.
      cbn [t_seq]. rewrite Sz. split; [f_equal; lia|]. rewrite nth_error_app2, Nat.sub_diag by lia. cbn [numbered nth_error].
      do 3 f_equal; lia.
    - intros E. injection E as <- <-. exists s. split; [constructor|]. split; [exact I|exact X].
    - intros E. injection E as <- <-. exists s. split; [constructor|]. split; [exact I|exact X].
  Qed.

  Lemma lsteps_app (s : lst (B := B)) a : forall s1 b s2, lsteps s a s1 -> lsteps s1 b s2 -> lsteps s (a ++ b) s2.
  Proof. intros s1 b s2 L1 L2. induction L1; [exact L2|]. cbn [app]. econstructor; eauto. Qed.
  Lemma all_allowed_app a : forall (s : lst (B := B)) b, all_allowed s (a ++ b) -> all_allowed s a /\ forall s', lsteps s a s' -> all_allowed s' b.
  Proof.
    induction a as [|o a IH]; intros s b A; [split; [exact Logic.I|intros s' L; inversion L; subst; exact A]|].
    destruct A as [A1 A2]. split.
    - split; [exact A1|]. intros s' L. apply (IH s' b), A2, L.
    - intros s' L. inversion L; subst. eapply (IH _ b); [apply A2; eassumption|eassumption].
  Qed.
  Lemma run_inv es : forall n s n' o, Inv n s -> all_allowed s (ops es) -> run n es = Ok (n', o) ->
    exists s', lsteps s (ops es) s' /\ Inv n' s'.
  Proof.
    induction es as [|e es IH]; intros n s n' o I A; cbn [Reply_Model.run].
    { intros E. injection E as <- <-. exists s. split; [constructor|exact I]. }
    unfold ops in A. cbn [flat_map] in A. fold (ops es) in A. apply all_allowed_app in A as [A1 A2].
    destruct (step n e) as [[n1 o1]|] eqn:E1; cbn [bind]; [|discriminate].
    destruct (run n1 es) as [[n2 o2]|] eqn:E2; cbn [bind]; [|discriminate]. intros E. injection E as <- <-.
    destruct (step_inv n s e n1 o1 I) as (s1 & L1 & I1); [|exact E1|].
    { intros q Hq. destruct e; cbn [ops1] in *; try (destruct Hq as [<-|[]]; apply A1); destruct Hq. }
    destruct (IH n1 s1 n2 o2 I1 (A2 _ L1) E2) as (s2 & L2 & I2).
    exists s2. split; [|exact I2]. unfold ops. cbn [flat_map]. eapply lsteps_app; eauto.
  Qed.
  Lemma start_inv p0 : new_ledger = Ok p0 -> Inv (start p0) lempty.
  Proof.
    intros E. destruct (new_ok H B ser_log deser_log ser_tree deser_ser) as (q0 & F0 & I0). assert (q0 = p0) by congruence. subst q0.
    split; [exact I0|]. split; [intros d s []|intros d []].
  Qed.
  Lemma reached_inv es n : reached es n -> exists s, lsteps lempty (ops es) s /\ Inv n s.
  Proof. intros (p0 & o & E & R & A). eapply run_inv; eauto using start_inv. Qed.
  Lemma run_app es : forall n es' , run n (es ++ es') = ('(n1, o1) <- run n es ;; '(n2, o2) <- run n1 es' ;; Ok (n2, o1 ++ o2)).
  Proof.
    induction es as [|e es IH]; intros n es'; cbn [Reply_Model.run app bind].
    { destruct (run n es') as [[n2 o2]|]; reflexivity. }
    destruct (step n e) as [[n1 o1]|]; cbn [bind]; [|reflexivity]. rewrite IH.
    destruct (run n1 es) as [[n2 o2]|]; cbn [bind]; [|reflexivity].
    destruct (run n2 es') as [[n3 o3]|]; cbn [bind]; [|reflexivity]. rewrite app_assoc. reflexivity.
  Qed.

  (** ** Replies from the ledger *)
  Lemma LInv_mt l C : LInv l C -> MtOf H (l_tree l, l_store l) (map (hash_leaf H) (map ser_tree C)).
  Proof.
    intros [(T & L1 & L2 & L3 & L4) _]. rewrite map_map. fold (lhs H B ser_tree C).
    split; [exact T|]. unfold StoreOf, l_store. cbn. auto.
  Qed.
  Lemma root_upto l C n : LInv l C -> 1 <= n <= length C ->
    merkle_tree_hash H (l_store l) 0 n = Ok (mthh H (lhs H B ser_tree (firstn n C))).
  Proof.
    intros LI Hn. pose proof (LInv_mt _ _ LI) as [_ SO]. cbn [snd] in SO. rewrite map_map in SO. fold (lhs H B ser_tree C) in SO.
    pose proof (StoreOf_Reads H _ _ SO) as R. rewrite lhs_length in R.
    pose proof (merkle_tree_hash_ok H (l_store l) (lhs H B ser_tree C) 0 n 0 n) as M. rewrite lhs_length in M. cbn [Nat.add] in M.
    rewrite M; [|lia|pose proof (pow2_gt n); lia|lia|destruct R as [R1 R2]; split; auto; intros; eapply R2; eauto; lia].
    unfold lhs. rewrite slice_map, <- firstn_slice. reflexivity.
  Qed.
  Lemma path_upto l C i n x : LInv l C -> i < n -> n <= length C -> nth_error C i = Some x ->
    exists P, inclusion_proof H (l_store l) i n = Ok P /\ P = ipath H n i (lhs H B ser_tree (firstn n C)) /\
      verify_leaf_inclusion H (ser_tree x) i P n (mthh H (lhs H B ser_tree (firstn n C))) = Ok tt.
  Proof.
    intros LI Hi Hn N. pose proof (LInv_mt _ _ LI) as M.
    destruct (inclusion_complete H _ _ i n (ser_tree x) M Hi) as (P & E1 & E2 & E3).
    - rewrite map_length. exact Hn.
    - rewrite nth_error_map, N. reflexivity.
    - exists P. cbn [snd] in E1. split; [exact E1|]. unfold lhs. rewrite firstn_map in E3. rewrite !firstn_map, !map_map in *. auto.
  Qed.
  Lemma lhs_MTH L : MTH H (map ser_tree L) (mthh H (lhs H B ser_tree L)).
  Proof. unfold lhs. rewrite <- (map_map ser_tree (hash_leaf H)). apply mthh_MTH. Qed.
  Lemma list_ext {X} (l : list X) : forall m, (forall i, nth_error l i = nth_error m i) -> l = m.
  Proof.
    induction l as [|a l IH]; intros [|b m] E; [reflexivity|specialize (E 0); discriminate|specialize (E 0); discriminate|].
    pose proof (E 0) as E0. injection E0 as ->. f_equal. apply IH. intros i. exact (E (S i)).
  Qed.
  Lemma contents_LInv l C D : LInv l C -> contents l D <-> D = C.
  Proof.
    intros LI. pose proof (size_ok _ _ _ _ _ _ LI) as Sz. split.
    - intros [S1 G]. apply list_ext. intros i. destruct (Nat.lt_ge_cases i (length D)) as [L|L].
      + specialize (G i L). rewrite (getBySeqNo_ok H B ser_log deser_log ser_tree deser_ser ser_nonempty _ _ _ LI) in G.
        destruct (nth_error C i); congruence.
      + rewrite (proj2 (nth_error_None _ _)) by exact L. symmetry. apply nth_error_None. lia.
    - intros ->. split; [exact Sz|]. intros i L. rewrite (getBySeqNo_ok H B ser_log deser_log ser_tree deser_ser ser_nonempty _ _ _ LI).
      destruct (nth_error C i) eqn:N; [reflexivity|]. apply nth_error_None in N. lia.
  Qed.

  Lemma firstn_snoc {A} (l : list A) i x : nth_error l i = Some x -> firstn (S i) l = firstn i l ++ [x].
  Proof.
    revert i. induction l as [|a l IH]; intros [|i] N; try discriminate; cbn in N.
    - injection N as ->. reflexivity.
    - cbn [firstn app]. f_equal. apply IH. exact N.
  Qed.
  Lemma getReply_write l C i x : LInv l C -> nth_error C i = Some x ->
    getReply l (S i) true = Ok (Some (Reply x (mthh H (lhs H B ser_tree (firstn (S i) C))) (rev (peaks H (lhs H B ser_tree (firstn i C)))) None)).
  Proof.
    intros LI N. assert (Li : i < length C) by (apply nth_error_Some; congruence). unfold getReplyFromLedger.
    rewrite (getBySeqNo_ok H B ser_log deser_log ser_tree deser_ser ser_nonempty _ _ _ LI), N. cbn [bind]. unfold merkleInfo. cbn [Nat.leb].
    rewrite (root_upto _ _ _ LI) by lia. cbn [bind]. rewrite Nat.sub_succ, Nat.sub_0_r.
    destruct (path_upto _ _ i (S i) x LI) as (P & E1 & E2 & _); [lia|lia|exact N|]. rewrite E1. cbn [bind]. do 3 f_equal.
    rewrite E2. rewrite (firstn_snoc _ _ _ N). rewrite lhs_app. cbn [lhs map].
    replace i with (length (lhs H B ser_tree (firstn i C))) at 1 2 by (rewrite lhs_length, firstn_length; lia). apply ipath_last.
  Qed.

  (** ** Replies to writes *)
  (** Every transaction of a committed batch is replied to, with the root of the ledger up to it and a
      path that is accepted for it; and whatever happens afterwards, the ledger gives the same reply. *)
  Theorem C70_write es k r es' n n1 rs n2 o2 rep : reached es n -> step n (EBatch k r) = Ok (n1, rs) ->
    run n1 es' = Ok (n2, o2) -> all_allowed lempty (ops (es ++ EBatch k r :: es')) -> In rep rs ->
    exists m D D', contents (p_base (n_p n1)) (D ++ r_txn rep :: D') /\ m = S (length D) /\ t_seq (r_txn rep) = Some m /\
      MTH H (map ser_tree (D ++ [r_txn rep])) (r_root rep) /\
      verify_leaf_inclusion H (ser_tree (r_txn rep)) (m - 1) (r_path rep) m (r_root rep) = Ok tt /\
      getReply (p_base (n_p n1)) m true = Ok (Some rep) /\ getReply (p_base (n_p n2)) m true = Ok (Some rep).
  Proof.
    intros R E R2 A Hr. destruct (reached_inv _ _ R) as (s & Ls & I).
    unfold ops in A. rewrite flat_map_app in A. cbn [flat_map ops1] in A. fold (ops es) (ops es') in A.
    apply all_allowed_app in A as [_ A]. specialize (A _ Ls). cbn [app] in A. destruct A as [A1 A2].
    assert (I1 : exists s1, lstep s (OCommit k) s1 /\ Inv n1 s1).
    { destruct (step_inv n s (EBatch k r) n1 rs I) as (s1 & L1 & I1); [intros q [<-|[]]; exact Logic.I|exact E|].
      exists s1. split; [|exact I1]. inversion L1 as [|? ? ? ? ? La Lb]; subst. inversion Lb; subst. exact La. }
    destruct I1 as (s1 & L1 & I1). destruct (run_inv es' n1 s1 n2 o2 I1 (A2 _ L1) R2) as (s2 & L2 & I2).
    destruct (lsteps_prefix B _ _ _ L2) as [z Ez].
    destruct (batch_facts (n_p n) s k (proj1 I)) as (l & ws & range & E1 & _). cbv zeta in E1.
    cbn [Reply_Model.step] in E. rewrite E1 in E. cbn [bind] in E. injection E as _ <-.
    assert (C1 : committed s1 = committed s ++ firstn k (uncommitted s)) by (inversion L1; subst; reflexivity).
    apply in_map_iff in Hr as ((x & (nn & root) & path) & Q & Hi). subst rep. cbn [r_txn r_root r_path].
    apply In_nth_error in Hi as [i Ni].
    assert (NC : forall {X Y} (l : list X) (m : list Y) i x y, nth_error (combine l m) i = Some (x, y) -> nth_error l i = Some x /\ nth_error m i = Some y).
    { clear. induction l as [|a l IH]; intros [|b m] [|i] x y E; try discriminate; cbn in *; [injection E as <- <-; auto|apply IH; exact E]. }
    apply NC in Ni as [Nx Nm]. unfold infos in Nm. rewrite nth_error_map in Nm.
    assert (Li : i < length (firstn k (uncommitted s))) by (apply nth_error_Some; congruence).
    assert (NS : nth_error (seq 0 (length (firstn k (uncommitted s)))) i = Some i).
    { rewrite (nth_error_nth' _ 0) by (rewrite seq_length; lia). rewrite seq_nth by lia. reflexivity. }
    rewrite NS in Nm. cbn [option_map] in Nm. injection Nm as <- Er Ep.
    set (C := committed s) in *. set (U := firstn k (uncommitted s)) in *.
    change (mthh H (lhs H B ser_tree (C ++ firstn (S i) U)) = root) in Er.
    assert (N1 : nth_error (committed s1) (length C + i) = Some x).
    { rewrite C1, nth_error_app2 by lia. rewrite Nat.add_comm, Nat.add_sub. exact Nx. }
    assert (N2 : nth_error (committed s2) (length C + i) = Some x).
    { rewrite Ez, nth_error_app1 by (apply nth_error_Some; congruence). exact N1. }
    assert (F1 : firstn (length C + i) (committed s1) = C ++ firstn i U) by (rewrite C1; apply firstn_app_2).
    assert (F1' : firstn (S (length C + i)) (committed s1) = C ++ firstn (S i) U).
    { rewrite C1. replace (S (length C + i)) with (length C + S i) by lia. apply firstn_app_2. }
    assert (Fz : forall j, j <= length (committed s1) -> firstn j (committed s2) = firstn j (committed s1)).
    { intros j Lj. rewrite Ez, firstn_app. replace (j - length (committed s1)) with 0 by lia. cbn [firstn]. apply app_nil_r. }
    assert (L1' : length C + i < length (committed s1)) by (apply nth_error_Some; congruence).
    destruct I1 as [P1 _], I2 as [P2 _]. pose proof (proj1 P1) as LI1. pose proof (proj1 P2) as LI2.
    assert (G1 : getReply (p_base (n_p n1)) (S (length C + i)) true = Ok (Some (Reply x root path None))).
    { rewrite (getReply_write _ _ _ _ LI1 N1), F1, F1', Er, Ep. reflexivity. }
    exists (S (length C + i)), (C ++ firstn i U), (skipn (S i) U).
    split.
    { apply (contents_LInv _ _ _ LI1). rewrite C1. rewrite <- app_assoc. f_equal.
      transitivity (firstn (S i) U ++ skipn (S i) U); [|apply firstn_skipn].
      rewrite (firstn_snoc _ _ _ Nx), <- app_assoc. reflexivity. }
    split; [rewrite app_length, firstn_length, Nat.min_l by lia; reflexivity|].
    split.
    { destruct P1 as (_ & _ & Q & _). rewrite (Q (length C + i) x); [f_equal; lia|].
      rewrite nth_error_app1 by exact L1'. exact N1. }
    split.
    { rewrite <- Er. rewrite <- app_assoc, <- (firstn_snoc _ _ _ Nx). apply lhs_MTH. }
    split.
    { destruct (path_upto _ _ (length C + i) (S (length C + i)) x LI1) as (P & E3 & _ & E4); [lia|lia|exact N1|].
      unfold getReplyFromLedger in G1. rewrite (getBySeqNo_ok H B ser_log deser_log ser_tree deser_ser ser_nonempty _ _ _ LI1), N1 in G1.
      cbn [bind] in G1. unfold merkleInfo in G1. cbn [Nat.leb] in G1. rewrite (root_upto _ _ _ LI1) in G1 by lia. cbn [bind] in G1.
      rewrite Nat.sub_succ, Nat.sub_0_r in G1. rewrite E3 in G1. cbn [bind] in G1. injection G1 as <- <-.
      rewrite Nat.sub_succ, Nat.sub_0_r. exact E4. }
    split; [exact G1|]. rewrite (getReply_write _ _ _ _ LI2 N2). rewrite !Fz by lia. rewrite F1, F1', Er, Ep. reflexivity.
  Qed.

  (** A request that is sent again gets this reply, if all transactions of the batch had a request id
      (and payloads are not ordered twice: C60).  Other requests with the same payload are refused. *)
  Definition payload_once (D : list (txn B)) : Prop :=
    forall i j x y, nth_error D i = Some x -> nth_error D j = Some y -> payload_digest (t_body x) = payload_digest (t_body y) -> i = j.
  Lemma keeps_payload es : forall n n' o a, run n es = Ok (n', o) -> In a (n_payload n) -> In a (n_payload n').
  Proof.
    induction es as [|e es IH]; intros n n' o a; cbn [Reply_Model.run]; [intros E; injection E as <- _; auto|].
    destruct (step n e) as [[n1 o1]|] eqn:E1; cbn [bind]; [|discriminate].
    destruct (run n1 es) as [[n2 o2]|] eqn:E2; cbn [bind]; [|discriminate]. intros E Hi. injection E as <- _.
    apply (IH _ _ _ _ E2). destruct e as [q|k r|b|r|m]; cbn [Reply_Model.step] in E1.
    - destruct (Ledger_Model.step _ _ _ _ _ _ _); cbn [bind] in E1; [|discriminate]. injection E1 as <- _. exact Hi.
    - destruct (commitTxns _ _ _ _ _ _) as [[[[? ?] ?] ?]|]; cbn [bind] in E1; [|discriminate]. injection E1 as <- _.
      unfold updateSeqNoMap. destruct (forallb _ _); [|exact Hi]. cbn [n_payload add_batch]. apply add_keep. exact Hi.
    - destruct (p_add _ _ _ _ _ _) as [[[? ?] ?]|]; cbn [bind] in E1; [|discriminate]. injection E1 as <- _.
      unfold updateSeqNoMap. destruct (forallb _ _); [|exact Hi]. cbn [n_payload add_batch]. apply add_keep. exact Hi.
    - injection E1 as <- _. exact Hi.
    - injection E1 as <- _. exact Hi.
  Qed.
  Lemma keeps_full es : forall n n' o a, run n es = Ok (n', o) -> In a (n_full n) -> In a (n_full n').
  Proof.
    induction es as [|e es IH]; intros n n' o a; cbn [Reply_Model.run]; [intros E; injection E as <- _; auto|].
    destruct (step n e) as [[n1 o1]|] eqn:E1; cbn [bind]; [|discriminate].
    destruct (run n1 es) as [[n2 o2]|] eqn:E2; cbn [bind]; [|discriminate]. intros E Hi. injection E as <- _.
    apply (IH _ _ _ _ E2). destruct e as [q|k r|b|r|m]; cbn [Reply_Model.step] in E1.
    - destruct (Ledger_Model.step _ _ _ _ _ _ _); cbn [bind] in E1; [|discriminate]. injection E1 as <- _. exact Hi.
    - destruct (commitTxns _ _ _ _ _ _) as [[[[? ?] ?] ?]|]; cbn [bind] in E1; [|discriminate]. injection E1 as <- _.
      unfold updateSeqNoMap. destruct (forallb _ _); [|exact Hi]. cbn [n_full add_batch]. apply add_keep'. exact Hi.
    - destruct (p_add _ _ _ _ _ _) as [[[? ?] ?]|]; cbn [bind] in E1; [|discriminate]. injection E1 as <- _.
      unfold updateSeqNoMap. destruct (forallb _ _); [|exact Hi]. cbn [n_full add_batch]. apply add_keep'. exact Hi.
    - injection E1 as <- _. exact Hi.
    - injection E1 as <- _. exact Hi.
  Qed.
  Lemma get_in d l : (exists s, In (d, s) l) -> exists s, In (d, s) l /\ get_by_payload_digest d l = s.
  Proof.
    induction l as [|(d', s') l IH]; intros [s Hi]; [destruct Hi|]. cbn [get_by_payload_digest].
    destruct (Nat.eqb_spec d' d) as [->|Ne].
    - exists s'. split; [left; reflexivity|reflexivity].
    - destruct Hi as [E|Hi]; [congruence|]. destruct (IH (ex_intro _ s Hi)) as (s2 & A & F). exists s2. split; [right; exact A|exact F].
  Qed.
  Lemma get_none d l : (forall s, ~ In (d, s) l) -> get_by_payload_digest d l = None.
  Proof.
    induction l as [|(d', s') l IH]; intros N; [reflexivity|]. cbn [get_by_payload_digest].
    destruct (Nat.eqb_spec d' d) as [->|Ne]; [destruct (N s'); left; reflexivity|]. apply IH. intros s Hi. apply (N s). right. exact Hi.
  Qed.

  Theorem C70_repeated_partial es k r es' n n1 rs n2 o2 rep D : reached es n -> step n (EBatch k r) = Ok (n1, rs) ->
    run n1 es' = Ok (n2, o2) -> all_allowed lempty (ops (es ++ EBatch k r :: es')) -> In rep rs ->
    (forall rep', In rep' rs -> has_req_id (t_body (r_txn rep')) = true) ->
    contents (p_base (n_p n2)) D -> payload_once D ->
    let b := t_body (r_txn rep) in
    forRequest n2 (payload_digest b) (digest b) = Ok (AReply rep) /\
    forall full, (forall x, In x D -> digest (t_body x) <> full) -> forRequest n2 (payload_digest b) full = Ok ANack.
  Proof.
    intros R E R2 A Hr Hid HD Once b.
    destruct (C70_write es k r es' n n1 rs n2 o2 rep R E R2 A Hr) as (m & D1 & D1' & _ & Em & Es & _ & _ & _ & G).
    destruct (reached_inv _ _ R) as (s & Ls & I).
    unfold ops in A. rewrite flat_map_app in A. cbn [flat_map ops1] in A. fold (ops es) (ops es') in A.
    apply all_allowed_app in A as [_ A]. specialize (A _ Ls). cbn [app] in A. destruct A as [A1 A2].
    assert (I1 : exists s1, lstep s (OCommit k) s1 /\ Inv n1 s1).
    { destruct (step_inv n s (EBatch k r) n1 rs I) as (s1 & L1 & I1); [intros q [<-|[]]; exact Logic.I|exact E|].
      exists s1. split; [|exact I1]. inversion L1 as [|? ? ? ? ? La Lb]; subst. inversion Lb; subst. exact La. }
    destruct I1 as (s1 & L1 & I1). destruct (run_inv es' n1 s1 n2 o2 I1 (A2 _ L1) R2) as (s2 & L2 & I2).
    destruct I2 as [P2 X2]. apply (contents_LInv _ _ _ (proj1 P2)) in HD. subst D.
    assert (In1 : In (payload_digest b, t_seq (r_txn rep)) (n_payload n1) /\ In (digest b) (n_full n1)).
    { cbn [Reply_Model.step] in E. destruct (commitTxns _ _ _ _ _ _) as [[[[rg pairs] p] w]|]; cbn [bind] in E; [|discriminate].
      injection E as <- <-.
      assert (Hx : In (r_txn rep) (map fst pairs)).
      { apply in_map_iff in Hr as ((x & (nn & root) & path) & Q & Hi). subst rep. cbn [r_txn]. apply in_map_iff. exists (x, (nn, root, path)). auto. }
      unfold updateSeqNoMap.
      assert (F : forallb (fun x => has_req_id (t_body x)) (map fst pairs) = true).
      { apply forallb_forall. intros x Hi. apply in_map_iff in Hi as ((x' & (nn & root) & path) & Q & Hi). cbn [fst] in Q. subst x'.
        apply (Hid (Reply x root path None)). apply in_map_iff. exists (x, (nn, root, path)). auto. }
      rewrite F. cbn [n_payload n_full add_batch]. split; [apply add_in; exact Hx|apply add_in'; exact Hx]. }
    pose proof (keeps_payload _ _ _ _ _ R2 (proj1 In1)) as In2. pose proof (keeps_full _ _ _ _ _ R2 (proj2 In1)) as In2'.
    destruct (get_in (payload_digest b) (n_payload n2)) as (s' & Hs' & Gs'); [eauto|].
    destruct X2 as [X2 X2']. destruct (X2 _ _ Hs') as (j & y & -> & Ny & Ey).
    rewrite Es in In2. destruct (X2 _ _ In2) as (i & x & Ei & Nx & Ex).
    assert (j = i) by (eapply Once; [exact Ny|exact Nx|congruence]). subst j.
    unfold getReplyFromLedgerForRequest. rewrite Gs'. injection Ei as Ei. split.
    - unfold get_by_full_digest. assert (Q : existsb (Nat.eqb (digest b)) (n_full n2) = true).
      { apply existsb_exists. exists (digest b). split; [exact In2'|apply Nat.eqb_refl]. }
      rewrite Q, <- Ei, G. reflexivity.
    - intros full Nf. unfold get_by_full_digest. destruct (existsb (Nat.eqb full) (n_full n2)) eqn:Q; [|reflexivity].
      apply existsb_exists in Q as (d & Hd & Q). apply Nat.eqb_eq in Q as <-. destruct (X2' _ Hd) as (z & Hz & Ez). destruct (Nf z Hz Ez).
  Qed.
  (** A request whose payload is not in the ledger is not replied to from there. *)
  Theorem C70_new es n D payload full : reached es n -> contents (p_base (n_p n)) D ->
    (forall x, In x D -> payload_digest (t_body x) <> payload) -> forRequest n payload full = Ok ANone.
  Proof.
    intros R HD N. destruct (reached_inv _ _ R) as (s & _ & P & X & _). apply (contents_LInv _ _ _ (proj1 P)) in HD. subst D.
    unfold getReplyFromLedgerForRequest. rewrite get_none; [reflexivity|]. intros q Hi.
    destruct (X _ _ Hi) as (i & x & _ & Nx & Ex). apply (N x); [eapply nth_error_In; eauto|exact Ex].
  Qed.

  (** ** GET_TXN *)
  (** A number in the ledger gets its transaction, the root and size of the ledger, and a path that a
      client accepts; other numbers get none. *)
  Theorem C70_get es n D : reached es n -> contents (p_base (n_p n)) D ->
    (forall i x, nth_error D i = Some x -> exists rep ms, get_txn n (S i) = Ok (Some rep, ms) /\
      r_txn rep = x /\ r_size rep = Some (length D) /\ MTH H (map ser_tree D) (r_root rep) /\
      client_accepts H B ser_tree (r_root rep) (S i) rep) /\
    (forall k, k = 0 \/ length D < k -> get_txn n k = Ok (None, None)).
  Proof.
    intros R HD. destruct (reached_inv _ _ R) as (s & _ & P & _). pose proof (proj1 P) as LI.
    apply (contents_LInv _ _ _ LI) in HD. subst D. set (C := committed s) in *. pose proof (size_ok _ _ _ _ _ _ LI) as Sz. split.
    - intros i x N. assert (Li : i < length C) by (apply nth_error_Some; congruence).
      destruct (path_upto _ _ i (length C) x LI) as (Pa & E1 & _ & E3); [exact Li|lia|exact N|].
      rewrite firstn_all in E3.
      exists (Reply x (mthh H (lhs H B ser_tree C)) Pa (Some (length C))).
      eexists. split.
      { unfold Reply_Model.get_txn, getReplyFromLedger.
        rewrite (getBySeqNo_ok H B ser_log deser_log ser_tree deser_ser ser_nonempty _ _ _ LI). fold C. rewrite N. cbn [bind].
        unfold auditProof. cbn [Nat.leb]. fold C in Sz. rewrite Sz, Nat.sub_succ, Nat.sub_0_r.
        rewrite (root_upto _ _ _ LI) by (fold C; lia). fold C. rewrite firstn_all. cbn [bind]. rewrite E1. cbn [bind]. reflexivity. }
      cbn [r_txn r_size r_root]. split; [reflexivity|]. split; [reflexivity|]. split; [apply lhs_MTH|].
      exists (length C). cbn [r_size r_txn r_path]. split; [reflexivity|]. rewrite Nat.sub_succ, Nat.sub_0_r. split; [exact E3|].
      destruct P as (_ & _ & Q & _). rewrite (Q i x); [f_equal; lia|]. rewrite nth_error_app1 by exact Li. exact N.
    - intros k Hk. unfold Reply_Model.get_txn, getReplyFromLedger.
      rewrite (getBySeqNo_ok H B ser_log deser_log ser_tree deser_ser ser_nonempty _ _ _ LI). destruct k as [|k]; [reflexivity|].
      fold C. rewrite (proj2 (nth_error_None C k)) by lia. reflexivity.
  Qed.

  (** A client that knows the root of the ledger accepts no other transaction for a number, whoever
      replies: size and path may be anything. *)
  Theorem C70_accepted D root k rep : FixedLength H -> (forall x y, ser_tree x = ser_tree y -> x = y) ->
    MTH H (map ser_tree D) root -> (forall i x, nth_error D i = Some x -> t_seq x = Some (S i)) ->
    client_accepts H B ser_tree root k rep ->
    (exists c, Collision H c) \/ (1 <= k /\ nth_error D (k - 1) = Some (r_txn rep)).
  Proof.
    intros HL Inj M Num (m & _ & V & Sq). apply verify_inclusion_calc in V as [_ V]. apply MTH_mthh in M. subst root.
    destruct (calc_climb H _ _ _ _ _ _ V) as [ss E]. symmetry in E.
    destruct (climb_sound H HL _ (map ser_tree D) (ser_tree (r_txn rep)) ss eq_refl E) as [C|Hi]; [left; exact C|right].
    apply in_map_iff in Hi as (x & Ex & Hx). apply Inj in Ex. subst x. apply In_nth_error in Hx as [i Ni].
    rewrite (Num _ _ Ni) in Sq. injection Sq as <-. split; [lia|]. rewrite Nat.sub_succ, Nat.sub_0_r. exact Ni.
  Qed.

  (** *** The multi-signature in the reply *)
  (** [m] was made for a batch in [es]: it has its state root and the root of the ledger after it. *)
  Definition made_for (p0 : pledger B) (es1 : list (event B)) (k : nat) (r : bytes) (m : msig) : Prop :=
    exists n o, run (start p0) (es1 ++ [EBatch k r]) = Ok (n, o) /\ ms_state m = r /\ ledger_root H (p_base (n_p n)) = Ok (ms_txn m).
  Definition state_roots (es : list (event B)) : list bytes := flat_map (fun e => match e with EBatch _ r => [r] | _ => [] end) es.
  (** nothing is added to the ledger, and no state root for it to the audit ledger *)
  Definition quiet (e : event B) : Prop :=
    match e with EOp (OApply _ | ODiscard _ | OReset) | EAudit None | EMulti _ => True | _ => False end.

  Lemma quiet_keeps b : forall n n' o s, Inv n s -> all_allowed s (ops b) -> (forall e, In e b -> quiet e) -> run n b = Ok (n', o) ->
    (exists s', Inv n' s' /\ committed s' = committed s) /\ last_state_root (n_audit n') = last_state_root (n_audit n).
  Proof.
    induction b as [|e b IH]; intros n n' o s I A Q; cbn [Reply_Model.run].
    { intros E. injection E as <- _. split; [exists s; auto|reflexivity]. }
    unfold ops in A. cbn [flat_map] in A. fold (ops b) in A. apply all_allowed_app in A as [A1 A2].
    destruct (step n e) as [[n1 o1]|] eqn:E1; cbn [bind]; [|discriminate].
    destruct (run n1 b) as [[n2 o2]|] eqn:E2; cbn [bind]; [|discriminate]. intros E. injection E as <- _.
    destruct (step_inv n s e n1 o1 I) as (s1 & L1 & I1); [|exact E1|].
    { intros q Hq. destruct e; cbn [ops1] in *; try (destruct Hq as [<-|[]]; apply A1); destruct Hq. }
    destruct (IH n1 n2 o2 s1 I1 (A2 _ L1) (fun e0 H0 => Q e0 (or_intror H0)) E2) as ((s' & I' & C') & La).
    assert (Qe : quiet e) by (apply Q; left; reflexivity).
    assert (C1 : committed s1 = committed s /\ last_state_root (n_audit n1) = last_state_root (n_audit n)).
    { destruct e as [q|k r|x|r|m]; cbn [quiet ops1 Reply_Model.step] in *; try contradiction.
      - destruct (Ledger_Model.step _ _ _ _ _ _ _); cbn [bind] in E1; [|discriminate]. injection E1 as <- _. cbn [n_audit]. split; [|reflexivity].
        inversion L1 as [|? ? ? ? ? La1 Lb1]; subst. inversion Lb1; subst. destruct q; try contradiction; inversion La1; subst; reflexivity.
      - destruct r; [contradiction|]. injection E1 as <- _. cbn [n_audit]. inversion L1; subst. split; [reflexivity|].
        unfold last_state_root. rewrite rev_app_distr. reflexivity.
      - injection E1 as <- _. cbn [n_audit]. inversion L1; subst. split; reflexivity. }
    destruct C1 as [C1 C1']. split; [exists s'; split; [exact I'|congruence]|congruence].
  Qed.
  Lemma bls_in es : forall n n' o m, run n es = Ok (n', o) -> In m (n_bls n') -> In m (n_bls n) \/ In (EMulti m) es.
  Proof.
    induction es as [|e es IH]; intros n n' o m; cbn [Reply_Model.run]; [intros E; injection E as <- _; auto|].
    destruct (step n e) as [[n1 o1]|] eqn:E1; cbn [bind]; [|discriminate].
    destruct (run n1 es) as [[n2 o2]|] eqn:E2; cbn [bind]; [|discriminate]. intros E Hi. injection E as <- _.
    destruct (IH _ _ _ _ E2 Hi) as [Hb|Hb]; [|right; right; exact Hb].
    destruct e as [q|k r|b|r|m']; cbn [Reply_Model.step] in E1.
    - destruct (Ledger_Model.step _ _ _ _ _ _ _); cbn [bind] in E1; [|discriminate]. injection E1 as <- _. auto.
    - destruct (commitTxns _ _ _ _ _ _) as [[[[? ?] ?] ?]|]; cbn [bind] in E1; [|discriminate]. injection E1 as <- _.
      unfold updateSeqNoMap in Hb. destruct (forallb _ _); auto.
    - destruct (p_add _ _ _ _ _ _) as [[[? ?] ?]|]; cbn [bind] in E1; [|discriminate]. injection E1 as <- _.
      unfold updateSeqNoMap in Hb. destruct (forallb _ _); auto.
    - injection E1 as <- _. auto.
    - injection E1 as <- _. cbn [n_bls] in Hb. destruct Hb as [->|Hb]; [right; left; reflexivity|auto].
  Qed.
  Lemma nodup_split (a b c d : list (event B)) k k' r : NoDup (state_roots (a ++ EBatch k r :: b)) ->
    a ++ EBatch k r :: b = c ++ EBatch k' r :: d -> a = c.
  Proof.
    revert c. induction a as [|e a IH]; intros c N E; destruct c as [|e' c]; cbn [app] in E.
    - reflexivity.
    - injection E as E1 E2. subst e'. subst b. exfalso. unfold state_roots in N. cbn [app flat_map] in N. inversion N as [|? ? Ni _]. apply Ni.
      rewrite flat_map_app. apply in_or_app. right. left. reflexivity.
    - injection E as E1 E2. subst e. exfalso. unfold state_roots in N. cbn [app flat_map] in N. inversion N as [|? ? Ni _]. apply Ni.
      rewrite flat_map_app. apply in_or_app. right. left. reflexivity.
    - injection E as E1 E2. subst e'. f_equal. apply (IH c); [|exact E2]. unfold state_roots in *. cbn [app flat_map] in N.
      destruct e; cbn [app] in N; try exact N. inversion N; assumption.
  Qed.

  (** If every batch changed the state root, and nothing was added to the ledger after the last batch,
      a multi-signature in the reply is for the root in the reply. *)
  Theorem C70_signed_partial p0 a k r b n o i rep ms : let es := a ++ EBatch k r :: b in
    new_ledger = Ok p0 -> all_allowed lempty (ops es) -> run (start p0) es = Ok (n, o) ->
    r <> [] -> (forall e, In e b -> quiet e) -> NoDup (state_roots es) ->
    (forall m, In (EMulti m) es -> exists a' k' r' b', es = a' ++ EBatch k' r' :: b' /\ made_for p0 a' k' r' m) ->
    get_txn n i = Ok (Some rep, Some ms) -> ms_txn ms = r_root rep /\ ms_state ms = r.
  Proof.
    intros es E0 A R Nr Q ND Hm G. subst es. unfold ops in A. rewrite flat_map_app in A. cbn [flat_map] in A. fold (ops a) (ops b) in A.
    rewrite app_assoc in A.
    apply all_allowed_app in A as [A1 A2].
    assert (R' : exists n1 o1 o2, run (start p0) (a ++ [EBatch k r]) = Ok (n1, o1) /\ run n1 b = Ok (n, o2)).
    { change (a ++ EBatch k r :: b) with (a ++ [EBatch k r] ++ b) in R. rewrite app_assoc, run_app in R.
      destruct (run (start p0) (a ++ [EBatch k r])) as [[n1 o1]|] eqn:E1; cbn [bind] in R; [|discriminate].
      destruct (run n1 b) as [[n2 o2]|] eqn:E2; cbn [bind] in R; [|discriminate]. injection R as -> _. eauto. }
    destruct R' as (n1 & o1 & o2 & R1 & R2).
    assert (OA : ops a ++ ops1 (EBatch k r) = ops (a ++ [EBatch k r])).
    { unfold ops. rewrite flat_map_app. cbn [flat_map]. rewrite app_nil_r. reflexivity. }
    rewrite OA in A1, A2.
    destruct (run_inv _ _ _ _ _ (start_inv _ E0) A1 R1) as (s1 & L1 & I1).
    destruct (quiet_keeps b n1 n o2 s1 I1 (A2 _ L1) Q R2) as ((s2 & I2 & C2) & La).
    assert (Lr : last_state_root (n_audit n1) = Some r).
    { rewrite run_app in R1. destruct (run (start p0) a) as [[na oa]|]; cbn [bind] in R1; [|discriminate].
      cbn [Reply_Model.run] in R1. destruct (step na (EBatch k r)) as [[nb ob]|] eqn:Eb; cbn [bind] in R1; [|discriminate].
      injection R1 as <- _. cbn [Reply_Model.step] in Eb.
      destruct (commitTxns _ _ _ _ _ _) as [[[[? ?] ?] ?]|]; cbn [bind] in Eb; [|discriminate]. injection Eb as <- _.
      rewrite update_audit. cbn [n_audit].
      unfold last_state_root. rewrite rev_app_distr. cbn [rev app find truthy]. destruct r; [congruence|reflexivity]. }
    rewrite Lr in La.
    unfold Reply_Model.get_txn in G. destruct (getReply (p_base (n_p n)) i false) as [t|e] eqn:Gr; [|destruct e; discriminate].
    rewrite La in G. injection G as -> Gm. unfold bls_get in Gm. apply find_some in Gm as [Hin Em]. apply bytes_eqb_eq in Em.
    destruct (bls_in _ _ _ _ _ R Hin) as [[]|Hev].
    destruct (Hm _ Hev) as (a' & k' & r' & b' & Es & n3 & o3 & R3 & E3 & L3).
    rewrite Em in E3. subst r'.
    assert (a = a') by (eapply nodup_split; [exact ND|exact Es]). subst a'. apply app_inv_head in Es. injection Es as <- <-.
    rewrite R1 in R3. injection R3 as <- <-. split; [|exact Em].
    (* the root in the reply *)
    pose proof (proj1 (proj1 I2)) as LI2. pose proof (proj1 (proj1 I1)) as LI1. rewrite C2 in LI2.
    assert (Lroot : ledger_root H (p_base (n_p n1)) = Ok (mthh H (lhs H B ser_tree (committed s1)))) by (apply TreeOf_root; apply LI1).
    rewrite Lroot in L3. injection L3 as <-.
    unfold getReplyFromLedger in Gr. rewrite (getBySeqNo_ok H B ser_log deser_log ser_tree deser_ser ser_nonempty _ _ _ LI2) in Gr.
    destruct i as [|i]; [discriminate|]. destruct (nth_error (committed s1) i) as [x|] eqn:N; [|discriminate]. cbn [bind] in Gr.
    assert (Li : i < length (committed s1)) by (apply nth_error_Some; congruence).
    unfold auditProof in Gr. cbn [Nat.leb] in Gr. rewrite (size_ok _ _ _ _ _ _ LI2) in Gr.
    rewrite (root_upto _ _ _ LI2) in Gr by lia. rewrite firstn_all in Gr. cbn [bind] in Gr.
    destruct (inclusion_proof _ _ _ _) as [P|]; cbn [bind] in Gr; [|discriminate]. injection Gr as <-. reflexivity.
  Qed.
  (** And it is there if the multi-signature of the last batch came. *)
  Theorem C70_signature_there es n i rep ms0 r m : reached es n -> get_txn n i = Ok (Some rep, ms0) ->
    last_state_root (n_audit n) = Some r -> In m (n_bls n) -> ms_state m = r -> exists m', ms0 = Some m' /\ ms_state m' = r.
  Proof.
    intros _ G L Hi E. unfold Reply_Model.get_txn in G. destruct (getReply _ _ _) as [t|e]; [|destruct e; discriminate].
    rewrite L in G. injection G as _ <-. unfold bls_get. destruct (find _ _) as [m'|] eqn:F.
    - apply find_some in F as [_ F]. apply bytes_eqb_eq in F. eauto.
    - exfalso. apply (find_none _ _ F) in Hi. rewrite (proj2 (bytes_eqb_eq _ _) E) in Hi. discriminate.
  Qed.
End Props.

(** ** Examples *)
Definition pay1 (b : N) : nat := N.to_nat (b / 10).
Definition dig1 (b : N) : nat := N.to_nat b.
Definition has1 (b : N) : bool := negb (N.eqb b 0).
Definition root1 (bs : list N) : bytes := mthh toyH (map (hash_leaf toyH) (map ser1 (numbered 0 bs))).
Notation run1 := (run toyH N ser1 deser1 ser1 pay1 dig1 has1).
Notation step1 := (step toyH N ser1 deser1 ser1 pay1 dig1 has1).
Notation new1 := (new_ledger toyH N deser1 ser1).
Definition ex_before : list (event N) :=
  [EOp (OApply [11; 22; 33]%N); EBatch 2 [1]%N; EMulti (MultiSig [1]%N (root1 [11; 22]%N)); EOp (OApply [44; 55]%N)].
Definition ex_after : list (event N) := [EMulti (MultiSig [2]%N (root1 [11; 22; 33; 44]%N)); EAudit None].

Ltac allow := repeat (split; [try exact Logic.I; cbn; auto; lia|]; intros ? L; inversion L; subst; clear L); try exact Logic.I.
Example ex_C70_allowed : all_allowed lempty (ops N (ex_before ++ EBatch 2 [2]%N :: ex_after)).
Proof. cbn [ops flat_map ops1 app ex_before ex_after]. allow. Qed.
Example ex_C70_allowed0 : all_allowed lempty (ops N ex_before).
Proof. cbn [ops flat_map ops1 app ex_before ex_after]. allow. Qed.

(** the hypotheses of [C70_write], [C70_repeated_partial], [C70_get] and [C70_signed_partial] are met *)
Example ex_C70 : exists p0 n o n1 rs n2 o2 rep ms,
  new1 = Ok p0 /\ run1 (start p0) ex_before = Ok (n, o) /\ step1 n (EBatch 2 [2]%N) = Ok (n1, rs) /\ length rs = 2 /\
  run1 n1 ex_after = Ok (n2, o2) /\
  getReplyFromLedgerForRequest toyH N deser1 n2 3 33 = Ok (AReply (nth 0 rs rep)) /\
  getReplyFromLedgerForRequest toyH N deser1 n2 3 34 = Ok ANack /\
  getReplyFromLedgerForRequest toyH N deser1 n2 5 55 = Ok ANone /\
  get_txn toyH N deser1 n2 2 = Ok (Some rep, Some ms) /\ t_body (r_txn rep) = 22%N /\ r_size rep = Some 4 /\
  ms_txn ms = r_root rep /\ ms_state ms = [2]%N /\
  get_txn toyH N deser1 n2 5 = Ok (None, None).
Proof. do 9 eexists. repeat (split; [vm_compute; reflexivity|]). vm_compute. reflexivity. Qed.
Example ex_C70_made : exists p0, new1 = Ok p0 /\
  made_for toyH N ser1 deser1 ser1 pay1 dig1 has1 p0 [EOp (OApply [11; 22; 33]%N)] 2 [1]%N (MultiSig [1]%N (root1 [11; 22]%N)) /\
  made_for toyH N ser1 deser1 ser1 pay1 dig1 has1 p0 ex_before 2 [2]%N (MultiSig [2]%N (root1 [11; 22; 33; 44]%N)).
Proof. eexists. split; [vm_compute; reflexivity|]. split; do 2 eexists; repeat (split; [vm_compute; reflexivity|]); vm_compute; reflexivity. Qed.

(** ** Refuted *)
(** The client has to look at the number in the transaction: the size is part of the reply and is not
    signed, so with a smaller one a path puts a transaction at another place. *)
Theorem C70_number_refuted : exists (D : list (txn N)) root x y path m,
  MTH toyH (map ser1 D) root /\ nth_error D 1 = Some y /\ x <> y /\
  verify_leaf_inclusion toyH (ser1 x) 1 path m root = Ok tt.
Proof.
  exists (numbered 0 [1; 2; 3]%N), (root1 [1; 2; 3]%N), (mkTxn 3%N (Some 3)), (mkTxn 2%N (Some 2)), [root1 [1; 2]%N], 2.
  split; [apply mthh_MTH|]. split; [reflexivity|]. split; [discriminate|]. vm_compute. reflexivity.
Qed.

(** The multi-signature is found by the state root alone.  If a batch brings an old state back and no
    multi-signature for it was made yet, the reply has the old one, for another root of the ledger. *)
Definition old_state : list (event N) :=
  [EOp (OApply [1]%N); EBatch 1 [7]%N; EMulti (MultiSig [7]%N (root1 [1]%N)); EOp (OApply [2]%N); EBatch 1 [8]%N; EOp (OApply [3]%N); EBatch 1 [7]%N].
Theorem C70_signed_refuted : exists p0 n o rep ms, new1 = Ok p0 /\ all_allowed lempty (ops N old_state) /\
  run1 (start p0) old_state = Ok (n, o) /\
  (forall m, In (EMulti m) old_state -> exists a' k' r' b', old_state = a' ++ EBatch k' r' :: b' /\
    made_for toyH N ser1 deser1 ser1 pay1 dig1 has1 p0 a' k' r' m) /\
  get_txn toyH N deser1 n 1 = Ok (Some rep, Some ms) /\ ms_txn ms <> r_root rep.
Proof.
  do 5 eexists. split; [vm_compute; reflexivity|]. split; [cbn [ops flat_map ops1 app old_state]; allow|].
  split; [vm_compute; reflexivity|]. split; [|split; [vm_compute; reflexivity|vm_compute; discriminate]].
  intros m Hm. repeat (destruct Hm as [E|Hm]; [try discriminate|]); [|destruct Hm].
  injection E as <-. exists [EOp (OApply [1]%N)], 1, [7]%N, (skipn 2 old_state). split; [reflexivity|].
  do 2 eexists. split; [vm_compute; reflexivity|]. split; [reflexivity|]. vm_compute. reflexivity.
Qed.

(** One transaction without request id (or with request id 0) keeps the whole batch out of the index:
    its requests get no reply when they are sent again. *)
Theorem C70_repeated_refuted : exists p0 n o rep, new1 = Ok p0 /\
  run1 (start p0) [EOp (OApply [11; 0]%N); EBatch 2 [1]%N] = Ok (n, o) /\ In rep o /\ t_body (r_txn rep) = 11%N /\
  getReplyFromLedgerForRequest toyH N deser1 n (pay1 11) (dig1 11) = Ok ANone.
Proof.
  do 4 eexists. split; [vm_compute; reflexivity|]. split; [vm_compute; reflexivity|].
  split; [left; reflexivity|]. split; [vm_compute; reflexivity|]. vm_compute. reflexivity.
Qed.

(** A query that is refused is replied to as well. *)
Theorem C70_refused_refuted : exists p0 n o r, new1 = Ok p0 /\ run1 (start p0) ex_before = Ok (n, o) /\
  process_query toyH N deser1 n true 0 = Ok [SNack; SReply r] /\
  process_query toyH N deser1 n false 1 = Ok [SNack; SReplyNack].
Proof. do 4 eexists. repeat (split; [vm_compute; reflexivity|]). vm_compute. reflexivity. Qed.
(** A query that is well formed is acknowledged and replied to. *)
Theorem C70_query H B deser n seq_no l : process_query H B deser n true seq_no = Ok l -> 1 <= seq_no ->
  exists r, get_txn H B deser n seq_no = Ok r /\ l = [SAck; SReply r].
Proof.
  unfold process_query. intros E L. assert (Q : (seq_no <? 1) = false) by (apply Nat.ltb_ge; exact L). rewrite Q in E. cbn [andb negb] in E.
  destruct (get_txn H B deser n seq_no) as [r|]; cbn [bind] in E; [|discriminate]. injection E as <-. eauto.
Qed.

Print Assumptions C70_write.
Print Assumptions C70_repeated_partial.
Print Assumptions C70_new.
Print Assumptions C70_get.
Print Assumptions C70_accepted.
Print Assumptions C70_signed_partial.
Print Assumptions C70_signature_there.
Print Assumptions C70_number_refuted.
Print Assumptions C70_signed_refuted.
Print Assumptions C70_repeated_refuted.
Print Assumptions C70_refused_refuted.
Print Assumptions C70_query.
