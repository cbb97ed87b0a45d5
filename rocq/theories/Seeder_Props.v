(** C51: what a correct node answers to a node that is catching up. *)
From Coq Require Import List Arith NArith ZArith Bool Lia Permutation.
From Verif Require Import Base Dict Bits_Model Merkle_Spec Merkle_Model Merkle_Proofs Merkle_Store Merkle_Verify Merkle_Ledger Merkle_Props
  Ledger_Model Ledger_Spec Ledger_Proofs Ledger_Proofs2 Ledger_Props
  Batch_Model CatchupReq_Model CatchupReq_Props Catchup_Model Catchup_Spec Catchup_Proofs Catchup_Props Seeder_Model.
Import ListNotations.

Section Props.
  Variable H : bytes -> bytes.
  Variable B : Type.
  Variable ser_log : txn B -> bytes.
  Variable deser_log : bytes -> txn B.
  Variable ser_tree : txn B -> bytes.
  Hypothesis deser_ser : forall x, deser_log (ser_log x) = x.
  Hypothesis ser_nonempty : forall x, ser_log x <> [].
  Hypothesis digest_nonempty : forall x, H x <> [].
  Variable transform : txn B -> res (txn B).
  Variable extra : txn B -> txn B.
  (** the transactions the pool has agreed on *)
  Variable L : list (txn B).

  Notation Shows := (Shows H B deser_log ser_tree).
  Notation prefix := (prefix B).
  Notation good_till := (good_till H B ser_tree L).
  Notation honest lid := (honest H B ser_tree transform lid L).
  Notation process_catchup_req := (process_catchup_req H B deser_log).
  Notation split := (split H B).
  Notation PInv := (PInv H B ser_log ser_tree).

  (** [p] is a ledger with a past, and shows the two-part list [s]. *)
  Definition Keeps (p : pledger B) (s : lst (B := B)) : Prop :=
    exists os p0, all_allowed lempty os /\ new_ledger H B deser_log ser_tree = Ok p0 /\
      Ledger_Model.run H B ser_log deser_log ser_tree p0 os = Ok p /\ Shows p s.

  Lemma Keeps_LInv p s : Keeps p s -> LInv H B ser_log ser_tree (p_base p) (committed s).
  Proof.
    intros (os & p0 & A & E0 & E1 & SH).
    destruct (new_ok H B ser_log deser_log ser_tree deser_ser) as (q0 & F0 & I0).
    assert (q0 = p0) by congruence. subst q0.
    destruct (run_sim H B ser_log deser_log ser_tree deser_ser os p0 _ I0 A) as (q' & s' & F & St & I).
    assert (q' = p) by congruence. subst q'.
    pose proof (PInv_Shows H B ser_log deser_log ser_tree deser_ser ser_nonempty digest_nonempty _ _ I) as SH'.
    destruct SH as (_ & _ & _ & _ & _ & _ & _ & _ & _ & _ & _ & X).
    destruct SH' as (_ & _ & _ & _ & _ & _ & _ & _ & _ & _ & _ & X').
    assert (E : committed s = committed s') by (rewrite <- X, <- X'; reflexivity). rewrite E. apply I.
  Qed.
  Lemma Keeps_mt p s : Keeps p s ->
    mt_appends H (empty_tree, empty_store) (map ser_tree (committed s)) = Ok (l_tree (p_base p), l_store (p_base p)).
  Proof.
    intros (os & p0 & _ & _ & _ & SH). destruct SH as (_ & _ & _ & _ & _ & _ & _ & _ & _ & _ & (ts & E & ->) & _). exact E.
  Qed.
  Lemma Keeps_size p s : Keeps p s -> size (p_base p) = length (committed s).
  Proof. intros K. apply (size_ok H B ser_log ser_tree). apply Keeps_LInv. exact K. Qed.

  (** *** getAllTxn *)
  Definition between (a b k : nat) : bool := (a <=? k) && (k <=? b).
  Lemma take_filter a b : forall (vs : list bytes) s,
    take_upto B deser_log b (filter (fun '(k, _) => a <=? k) (combine (seq s (length vs)) vs))
    = map (fun '(k, v) => (k, deser_log v)) (filter (fun '(k, _) => between a b k) (combine (seq s (length vs)) vs)).
  Proof.
    assert (Z : forall (vs : list bytes) s, b < s ->
      filter (fun '(k, _) => between a b k) (combine (seq s (length vs)) vs) = []).
    { induction vs as [|v vs IH]; intros s L0; [reflexivity|]. cbn [length seq combine filter].
      unfold between at 1. destruct (Nat.leb_spec s b); [lia|]. rewrite andb_false_r. apply IH. lia. }
    induction vs as [|v vs IH]; intros s; [reflexivity|]. cbn [length seq combine filter].
    unfold between at 1. destruct (Nat.leb_spec a s); [|cbn [andb]; apply IH].
    cbn [take_upto andb]. destruct (Nat.leb_spec s b).
    - cbn [map]. rewrite IH. reflexivity.
    - rewrite Z by lia. reflexivity.
  Qed.
  Lemma filter_combine_fst {A} (f : nat -> bool) : forall (vs : list A) ks,
    length ks = length vs -> map fst (filter (fun '(k, _) => f k) (combine ks vs)) = filter f ks.
  Proof.
    induction vs as [|v vs IH]; intros [|k ks] E; cbn in E |- *; try discriminate; [reflexivity|].
    destruct (f k); cbn; rewrite IH by lia; reflexivity.
  Qed.
  Lemma filter_seq a b n : 1 <= a -> a <= b -> b <= n -> filter (between a b) (seq 1 n) = seq a (b - a + 1).
  Proof.
    intros Ha Hab Hbn.
    remember (b - a + 1) as m eqn:Em.
    replace n with ((a - 1) + (m + (n - b))) by lia. rewrite !seq_app, !filter_app.
    replace (1 + (a - 1)) with a by lia. replace (a + m) with (S b) by lia.
    assert (N : forall s k, (forall x, s <= x < s + k -> between a b x = false) -> filter (between a b) (seq s k) = []).
    { intros s k. revert s. induction k as [|k IH]; intros s F; [reflexivity|]. cbn [seq filter].
      rewrite (F s) by lia. apply IH. intros x X. apply F. lia. }
    rewrite (N 1), (N (S b)).
    - cbn [app]. rewrite app_nil_r.
      assert (G : forall s k, (forall x, s <= x < s + k -> between a b x = true) -> filter (between a b) (seq s k) = seq s k).
      { intros s k. revert s. induction k as [|k IH]; intros s F; [reflexivity|]. cbn [seq filter].
        rewrite (F s) by lia. f_equal. apply IH. intros x X. apply F. lia. }
      apply G. intros x X. unfold between. destruct (Nat.leb_spec a x); [|lia]. destruct (Nat.leb_spec x b); [reflexivity|lia].
    - intros x X. unfold between. destruct (Nat.leb_spec a x); [|reflexivity]. destruct (Nat.leb_spec x b); [lia|reflexivity].
    - intros x X. unfold between. destruct (Nat.leb_spec a x); [lia|reflexivity].
  Qed.
  Lemma in_combine_nth {A} : forall (vs : list A) s k v,
    In (k, v) (combine (seq s (length vs)) vs) -> s <= k /\ nth_error vs (k - s) = Some v.
  Proof.
    induction vs as [|x vs IH]; intros s k v J; [contradiction|]. cbn [length seq combine] in J.
    destruct J as [J|J].
    - injection J as <- <-. rewrite Nat.sub_diag. split; [lia|reflexivity].
    - apply IH in J as [J1 J2]. split; [lia|]. replace (k - s) with (S (k - S s)) by lia. exact J2.
  Qed.
  (** Reading a range returns exactly the committed transactions with these numbers, in order. *)
  Theorem C51_get_all : forall p s a b, Keeps p s -> 1 <= a -> a <= b -> b <= length (committed s) ->
    map fst (getAllTxn B deser_log (p_base p) a b) = seq a (b - a + 1) /\
    forall k x, In (k, x) (getAllTxn B deser_log (p_base p) a b) -> nth_error (committed s) (k - 1) = Some x.
  Proof.
    intros p s a b K Ha Hab Hb. pose proof (Keeps_LInv p s K) as [_ D].
    unfold getAllTxn. rewrite D, kv_iter_dlist. unfold dlist. rewrite take_filter, map_length.
    set (vs := map ser_log (committed s)).
    assert (EL : length vs = length (committed s)) by (unfold vs; apply map_length).
    split.
    - rewrite map_map. transitivity (map fst (filter (fun '(k, _) => between a b k) (combine (seq 1 (length (committed s))) vs))).
      { apply map_ext. intros [k v]. reflexivity. }
      rewrite filter_combine_fst by (rewrite seq_length; lia). apply filter_seq; lia.
    - intros k x J. apply in_map_iff in J as ((k', v) & E & J). injection E as -> <-. apply filter_In in J as [J _].
      rewrite <- EL in J. apply in_combine_nth in J as [_ J]. unfold vs in J. rewrite nth_error_map in J.
      destruct (nth_error (committed s) (k - 1)) as [y|]; [|discriminate]. cbn in J. injection J as <-.
      rewrite deser_ser. reflexivity.
  Qed.

  (** *** Replies *)

  (** a reply with the agreed transactions [a], ..., [a + n - 1] in order, and the proof *)
  Definition piece (p : pledger B) (C : list (txn B)) (lid till a n : nat) (r : rep B) : Prop :=
    r_ledger B r = lid /\ 1 <= a /\ 0 < n /\ a + n - 1 <= till /\
    exists l pf, r_txns B r = Some l /\ map fst l = map (fun k => (k, 0)) (seq a n) /\
      (forall k x, In (k, x) l -> exists y, nth_error C (fst k - 1) = Some y /\ x = extra y) /\
      consistency_proof H (l_store (p_base p)) (a + n - 1) till = Ok pf /\ r_proof B r = Some pf.

  Lemma firstn_app_le {A} : forall n (u v : list A), n <= length u -> firstn n (u ++ v) = firstn n u.
  Proof. intros n u v E. rewrite firstn_app. replace (n - length u) with 0 by lia. cbn. apply app_nil_r. Qed.

  Lemma piece_honest p s lid t a n r : Keeps p s -> prefix (committed s) L -> good_till t ->
    t_final t <= length (committed s) ->
    (forall x, In x (committed s) -> transform (extra x) = Ok x) ->
    piece p (committed s) lid (t_final t) a n r -> honest lid t r a n.
  Proof.
    intros K (rest & EL) (GL & h & Eh & M) HT TR (E0 & Ha & Hn & Hb & l & pf & E1 & E2 & E3 & E4 & E5).
    split; [exact E0|]. split.
    { exists l. split; [exact E1|]. split; [|split; [exact Hn|]].
      - intros k x J. assert (X : In k (map fst l)) by (apply in_map_iff; exists (k, x); auto).
        rewrite E2 in X. apply in_map_iff in X as (y & <- & _). reflexivity.
      - assert (X : map (fun y => fst (fst y)) l = seq a n).
        { transitivity (map fst (map fst l)); [symmetry; apply map_map|]. rewrite E2, map_map. apply map_id. }
        rewrite X. apply Permutation_refl. }
    split; [exact Ha|]. split; [exact Hb|]. split.
    { intros l0 k x El J. assert (l0 = l) by congruence. subst l0. destruct (E3 k x J) as (y & N & ->).
      exists y. split.
      - rewrite EL. rewrite nth_error_app1; [exact N|]. apply nth_error_Some. congruence.
      - apply TR. eapply nth_error_In. exact N. }
    destruct (C04_consistency_complete H (map ser_tree (committed s)) _ _ (a + n - 1) (t_final t) (Keeps_mt p s K))
      as (pf' & rm & rn & F1 & F2 & F3 & F4); [lia|rewrite map_length; lia|].
    assert (pf' = pf) by congruence. subst pf'.
    exists pf, rm, h. split; [exact E5|]. split; [exact Eh|].
    assert (X : forall k, k <= length (committed s) -> map ser_tree (firstn k L) = firstn k (map ser_tree (committed s))).
    { intros k Hk. rewrite EL, firstn_app_le by exact Hk. symmetry. apply firstn_map. }
    rewrite X in * by lia. split; [exact F2|].
    rewrite (C01_MTH_functional H _ _ _ M F3). exact F4.
  Qed.

  (** A request for transactions the node has, with a target it has reached, is answered
      with an honest reply. *)
  Theorem C51_reply : forall ledgers lid p s t a b, ledgers lid = Some p -> Keeps p s -> prefix (committed s) L ->
    good_till t -> (forall x, In x (committed s) -> transform (extra x) = Ok x) ->
    1 <= a -> a <= b -> b <= t_final t -> t_final t <= size (p_base p) ->
    exists r, process_catchup_req ledgers extra lid a b (t_final t) = Ok (Some r) /\ honest lid t r a (b - a + 1).
  Proof.
    intros ledgers lid p s t a b EL K P G TR Ha Hab Hb Ht.
    pose proof (Keeps_size p s K) as ES.
    destruct (C04_consistency_complete H (map ser_tree (committed s)) _ _ b (t_final t) (Keeps_mt p s K))
      as (pf & rm & rn & F1 & _); [lia|rewrite map_length; lia|].
    unfold Seeder_Model.process_catchup_req. rewrite EL.
    destruct (Nat.ltb_spec a 1); [lia|]. destruct (Nat.ltb_spec b a); [lia|].
    destruct (Nat.ltb_spec (t_final t) b); [lia|]. destruct (Nat.ltb_spec (size (p_base p)) (t_final t)); [lia|].
    unfold make_consistency_proof. rewrite F1. cbn [bind].
    eexists. split; [reflexivity|].
    apply (piece_honest p s); auto; [lia|].
    destruct (C51_get_all p s a b K Ha Hab ltac:(lia)) as [G1 G2].
    split; [reflexivity|]. split; [exact Ha|]. split; [lia|]. split; [lia|].
    eexists. exists pf. split; [reflexivity|]. split; [|split; [|split; [|reflexivity]]].
    - rewrite map_map. rewrite <- G1, map_map. apply map_ext. intros [k x]. reflexivity.
    - intros k x J. apply in_map_iff in J as ((k0, y) & E & J). injection E as <- <-. exists y. split; [|reflexivity].
      exact (G2 k0 y J).
    - replace (a + (b - a + 1) - 1) with b by lia. exact F1.
  Qed.
  (** Everything else is left unanswered, and nothing raises. *)
  Theorem C51_no_reply : forall ledgers lid p a b till, ledgers lid = Some p ->
    ~ (1 <= a /\ a <= b /\ b <= till /\ till <= size (p_base p)) ->
    process_catchup_req ledgers extra lid a b till = Ok None.
  Proof.
    intros ledgers lid p a b till EL N. unfold Seeder_Model.process_catchup_req. rewrite EL.
    destruct (Nat.ltb_spec a 1); [reflexivity|]. destruct (Nat.ltb_spec b a); [reflexivity|].
    destruct (Nat.ltb_spec till b); [reflexivity|]. destruct (Nat.ltb_spec (size (p_base p)) till); [reflexivity|]. lia.
  Qed.
  Theorem C51_no_ledger : forall ledgers lid a b till, ledgers lid = None ->
    process_catchup_req ledgers extra lid a b till = Ok None.
  Proof. intros ledgers lid a b till E. unfold Seeder_Model.process_catchup_req. rewrite E. reflexivity. Qed.

  (** *** Splitting a reply that is too long for one message *)

  Lemma rev_last_app {A} (l : list A) x : rev (l ++ [x]) = x :: rev l.
  Proof. rewrite rev_app_distr. reflexivity. Qed.
  Lemma last_key (l : list (ckey * txn B)) a n : 0 < n -> map fst l = map (fun k => (k, 0)) (seq a n) ->
    exists v l', rev l = ((a + n - 1, 0), v) :: l'.
  Proof.
    intros Hn E. destruct n as [|n]; [lia|]. rewrite seq_S, map_app in E. cbn [map] in E.
    destruct l as [|y l _] using rev_ind.
    - exfalso. apply (f_equal (@length _)) in E. rewrite app_length in E. cbn in E. lia.
    - rewrite map_app in E. cbn [map] in E. apply app_inj_tail in E as [_ E]. rewrite rev_last_app.
      destruct y as [k v]. cbn [fst] in E. subst k. exists v, (rev l).
      replace (a + S n - 1) with (a + n) by lia. reflexivity.
  Qed.

  Lemma split_piece p s lid till a n r : Keeps p s -> till <= length (committed s) ->
    piece p (committed s) lid till a n r ->
    (n = 1 /\ split p till r = Ok None) \/
    (exists r1 r2 m, 0 < m < n /\ split p till r = Ok (Some [r1; r2]) /\
       piece p (committed s) lid till a m r1 /\ piece p (committed s) lid till (a + m) (n - m) r2).
  Proof.
    intros K HT (E0 & Ha & Hn & Hb & l & pf & E1 & E2 & E3 & E4 & E5).
    assert (EL : length l = n).
    { apply (f_equal (@length _)) in E2. rewrite !map_length, seq_length in E2. exact E2. }
    unfold Seeder_Model.split. rewrite E1. destruct (Nat.ltb_spec (length l) 2) as [C2|C2].
    { left. split; [lia|reflexivity]. }
    right. rewrite EL. set (m := Nat.div2 n).
    assert (Hm : 0 < m < n).
    { unfold m. pose proof (Nat.div2_odd n). destruct (Nat.odd n) eqn:O; cbn [Nat.b2n] in *; lia. }
    assert (SQ : seq a n = seq a m ++ seq (a + m) (n - m)).
    { rewrite <- seq_app. f_equal. lia. }
    assert (L1 : map fst (firstn m l) = map (fun k => (k, 0)) (seq a m)).
    { rewrite <- firstn_map, E2, SQ, map_app. rewrite firstn_app_le by (rewrite map_length, seq_length; lia).
      apply firstn_all2. rewrite map_length, seq_length. lia. }
    assert (L2 : map fst (skipn m l) = map (fun k => (k, 0)) (seq (a + m) (n - m))).
    { rewrite <- skipn_map, E2, SQ, map_app. rewrite skipn_app. rewrite skipn_all2 by (rewrite map_length, seq_length; lia).
      rewrite map_length, seq_length, Nat.sub_diag. reflexivity. }
    destruct (last_key _ a m ltac:(lia) L1) as (v1 & l1 & R1). destruct (last_key _ (a + m) (n - m) ltac:(lia) L2) as (v2 & l2 & R2).
    rewrite R1, R2. unfold make_consistency_proof.
    destruct (C04_consistency_complete H (map ser_tree (committed s)) _ _ (a + m - 1) till (Keeps_mt p s K))
      as (pf1 & _ & _ & F1 & _); [lia|rewrite map_length; lia|].
    destruct (C04_consistency_complete H (map ser_tree (committed s)) _ _ (a + m + (n - m) - 1) till (Keeps_mt p s K))
      as (pf2 & _ & _ & F2 & _); [lia|rewrite map_length; lia|].
    rewrite F1, F2. cbn [bind]. do 2 eexists. exists m. split; [exact Hm|]. split; [reflexivity|].
    split.
    - split; [exact E0|]. split; [lia|]. split; [lia|]. split; [lia|]. exists (firstn m l), pf1. split; [reflexivity|]. split; [exact L1|].
      split; [|split; [exact F1|reflexivity]]. intros k x J. apply E3. rewrite <- (firstn_skipn m l). apply in_or_app. left. exact J.
    - split; [exact E0|]. split; [lia|]. split; [lia|]. split; [lia|]. exists (skipn m l), pf2. split; [reflexivity|]. split; [exact L2|].
      split; [|split; [exact F2|reflexivity]]. intros k x J. apply E3. rewrite <- (firstn_skipn m l). apply in_or_app. right. exact J.
  Qed.

  (** The numbers [rs] of ranges: [(a, n)] is [a], ..., [a + n - 1]. *)
  Definition numbers (rs : list (nat * nat)) : list nat := flat_map (fun '(a, n) => seq a n) rs.

  (** the splitter handed to send_to (lines 94-95) *)
  Definition splitter (p : pledger B) (till : nat) (r : rep B) : option (list (rep B)) :=
    match split p till r with Ok x => x | Err _ => None end.

  Section Sending.
    Variable W : Type.
    Variable serialize : rep B -> W.
    Variable len : W -> nat.
    Variable limit : nat.

    Lemma send_loop p s lid till : Keeps p s -> till <= length (committed s) ->
      forall fuel large rs fine, Forall2 (fun r an => piece p (committed s) lid till (fst an) (snd an) r) large rs ->
      list_sum (map (fun an => 2 * snd an - 1) rs) <= fuel ->
      (exists out pieces rs', prepare_loop (rep B) W serialize len limit (Some (splitter p till)) fuel large fine = Ok (Some (fine ++ out)) /\
         out = map serialize pieces /\ Forall2 (fun r an => piece p (committed s) lid till (fst an) (snd an) r) pieces rs' /\
         Permutation (numbers rs') (numbers rs) /\ forall w, In w out -> len w <= limit) \/
      (exists r k, prepare_loop (rep B) W serialize len limit (Some (splitter p till)) fuel large fine = Ok None /\
         piece p (committed s) lid till k 1 r /\ In k (numbers rs) /\ limit < len (serialize r)).
    Proof.
      intros K HT. induction fuel as [|fuel IH]; intros large rs fine F2 HF.
      - destruct F2 as [|r [a n] large rs F F2].
        + left. exists [], [], []. rewrite app_nil_r. split; [reflexivity|]. split; [reflexivity|]. split; [constructor|].
          split; [apply Permutation_refl|intros w []].
        + exfalso. cbn in HF. destruct F as (_ & _ & Hn & _). cbn in Hn. lia.
      - destruct F2 as [|r [a n] large rs F F2].
        + left. exists [], [], []. cbn. rewrite app_nil_r. split; [reflexivity|]. split; [reflexivity|]. split; [constructor|].
          split; [apply Permutation_refl|intros w []].
        + cbn [fst snd] in F. assert (Hn : 0 < n) by apply F. cbn [map list_sum fold_right snd] in HF.
          change (fold_right Nat.add 0 ?x) with (list_sum x) in HF.
          cbn [prepare_loop]. unfold len_ok. destruct (Nat.leb_spec (len (serialize r)) limit) as [LE|GT].
          * destruct (IH large rs (fine ++ [serialize r]) F2 ltac:(lia)) as [(out & ps & rs' & E & EO & FF & PM & FL)|(r0 & k & E & FP & J & G)].
            -- left. exists (serialize r :: out), (r :: ps), ((a, n) :: rs'). rewrite E, <- app_assoc. split; [reflexivity|].
               split; [cbn; rewrite EO; reflexivity|]. split; [constructor; [exact F|exact FF]|]. split.
               ++ cbn. apply Permutation_app_head. exact PM.
               ++ intros w [<-|J]; [exact LE|apply FL; exact J].
            -- right. exists r0, k. split; [exact E|]. split; [exact FP|]. split; [|exact G]. cbn. apply in_or_app. right. exact J.
          * unfold splitter at 1 3. destruct (split_piece p s lid till a n r K HT F) as [[-> E]|(r1 & r2 & m & Hm & E & P1 & P2)].
            -- rewrite E. right. exists r, a. split; [reflexivity|]. split; [exact F|]. split; [cbn; left; reflexivity|exact GT].
            -- rewrite E. cbn [rev app].
               destruct (IH (r2 :: r1 :: large) ((a + m, n - m) :: (a, m) :: rs) fine) as [(out & ps & rs' & E' & EO & FF & PM & FL)|(r0 & k & E' & FP & J & G)].
               { constructor; [exact P2|]. constructor; [exact P1|exact F2]. }
               { cbn [map list_sum fold_right snd]. change (fold_right Nat.add 0 ?x) with (list_sum x). lia. }
               ++ left. exists out, ps, rs'. split; [exact E'|]. split; [exact EO|]. split; [exact FF|]. split; [|exact FL].
                  etransitivity; [exact PM|]. cbn. rewrite app_assoc. apply Permutation_app_tail.
                  replace n with (m + (n - m)) at 2 by lia. rewrite seq_app. apply Permutation_app_comm.
               ++ right. exists r0, k. split; [exact E'|]. split; [exact FP|]. split; [|exact G].
                  cbn in J. cbn. apply in_or_app. apply in_app_or in J as [J|J].
                  ** left. apply in_seq. apply in_seq in J. lia.
                  ** apply in_app_or in J as [J|J]; [left; apply in_seq; apply in_seq in J; lia|right; exact J].
    Qed.

    (** However long the reply is, what is sent is a list of messages within the limit that
        are honest replies for disjoint ranges which together make up the range asked
        for; unless already a reply with a single one of these transactions is too long. *)
    Theorem C51_split : forall ledgers lid p s t a b r fuel, ledgers lid = Some p -> Keeps p s -> prefix (committed s) L ->
      good_till t -> (forall x, In x (committed s) -> transform (extra x) = Ok x) ->
      process_catchup_req ledgers extra lid a b (t_final t) = Ok (Some r) ->
      2 * (b - a + 1) <= fuel ->
      (exists pieces rs,
         prepare_for_sending (rep B) W serialize len limit (Some (splitter p (t_final t))) fuel r = Ok (Some (map serialize pieces)) /\
         Forall2 (fun r an => honest lid t r (fst an) (snd an)) pieces rs /\
         Permutation (numbers rs) (seq a (b - a + 1)) /\
         (forall r, In r pieces -> len (serialize r) <= limit)) \/
      (exists r1 k,
         prepare_for_sending (rep B) W serialize len limit (Some (splitter p (t_final t))) fuel r = Ok None /\
         honest lid t r1 k 1 /\ a <= k <= b /\ limit < len (serialize r1)).
    Proof.
      intros ledgers lid p s t a b r fuel EL K P G TR ER HF.
      pose proof (Keeps_size p s K) as ES.
      assert (RG : 1 <= a /\ a <= b /\ b <= t_final t /\ t_final t <= size (p_base p)).
      { revert ER. unfold Seeder_Model.process_catchup_req. rewrite EL.
        destruct (Nat.ltb_spec a 1); [discriminate|]. destruct (Nat.ltb_spec b a); [discriminate|].
        destruct (Nat.ltb_spec (t_final t) b); [discriminate|]. destruct (Nat.ltb_spec (size (p_base p)) (t_final t)); [discriminate|].
        intros _. lia. }
      destruct RG as (Ha & Hab & Hb & Ht).
      assert (PC : piece p (committed s) lid (t_final t) a (b - a + 1) r).
      { revert ER. unfold Seeder_Model.process_catchup_req. rewrite EL.
        destruct (Nat.ltb_spec a 1); [discriminate|]. destruct (Nat.ltb_spec b a); [discriminate|].
        destruct (Nat.ltb_spec (t_final t) b); [discriminate|]. destruct (Nat.ltb_spec (size (p_base p)) (t_final t)); [discriminate|].
        unfold make_consistency_proof.
        destruct (C04_consistency_complete H (map ser_tree (committed s)) _ _ b (t_final t) (Keeps_mt p s K))
          as (pf & rm & rn & F1 & _); [lia|rewrite map_length; lia|].
        rewrite F1. cbn [bind]. intros E. injection E as <-.
        destruct (C51_get_all p s a b K Ha Hab ltac:(lia)) as [G1 G2].
        split; [reflexivity|]. split; [exact Ha|]. split; [lia|]. split; [lia|].
        eexists. exists pf. split; [reflexivity|]. split; [|split; [|split; [|reflexivity]]].
        - rewrite map_map. rewrite <- G1, map_map. apply map_ext. intros [k x]. reflexivity.
        - intros k x J. apply in_map_iff in J as ((k0, y) & E & J). injection E as <- <-. exists y. split; [|reflexivity].
          exact (G2 k0 y J).
        - replace (a + (b - a + 1) - 1) with b by lia. exact F1. }
      unfold prepare_for_sending.
      destruct (send_loop p s lid (t_final t) K ltac:(lia) fuel [r] [(a, b - a + 1)] [])
        as [(out & ps & rs' & E & EO & FF & PM & FL)|(r0 & k & E & FP & J & GT)].
      - constructor; [exact PC|constructor].
      - cbn. lia.
      - left. exists ps, rs'. split; [rewrite E, EO; reflexivity|]. split.
        + clear -FF K P G TR Ht ES deser_ser ser_nonempty digest_nonempty.
          induction FF as [|x y xs ys F FF IH]; constructor; [|exact IH].
          apply (piece_honest p s); auto. lia.
        + split; [cbn in PM; rewrite app_nil_r in PM; exact PM|]. intros r0 J. apply FL. rewrite EO. apply in_map. exact J.
      - right. exists r0, k. split; [exact E|]. split; [apply (piece_honest p s); auto; lia|]. split; [|exact GT].
        cbn in J. rewrite app_nil_r in J. apply in_seq in J. lia.
    Qed.
  End Sending.

  (** *** Consistency proofs *)
  Notation build_consistency_proof := (build_consistency_proof H B).

  (** The roots of a proof are those of the agreed transactions, and it verifies. *)
  Theorem C51_proof : forall ledgers lid p s a b, ledgers lid = Some p -> Keeps p s -> prefix (committed s) L ->
    0 < a -> a <= b -> b <= size (p_base p) ->
    exists ra rb pf, build_consistency_proof ledgers lid a b = Ok (Some (mkCP lid a b 0 0 ra rb pf)) /\
      MTH H (map ser_tree (firstn a L)) ra /\ MTH H (map ser_tree (firstn b L)) rb /\
      verify_tree_consistency H a b ra rb pf = Ok tt.
  Proof.
    intros ledgers lid p s a b EL K (rest & PL) Ha Hab Hb. pose proof (Keeps_size p s K) as ES.
    unfold Seeder_Model.build_consistency_proof. rewrite EL.
    destruct (Nat.ltb_spec b a); [lia|]. destruct (Nat.ltb_spec (size (p_base p)) a); [lia|].
    destruct (Nat.ltb_spec (size (p_base p)) b); [lia|]. destruct (Nat.eqb_spec a 0) as [|Na]; [lia|].
    unfold make_consistency_proof.
    destruct (C04_consistency_complete H (map ser_tree (committed s)) _ _ a b (Keeps_mt p s K))
      as (pf & rm & rn & F1 & F2 & F3 & F4); [lia|rewrite map_length; lia|].
    rewrite F1. cbn [bind].
    assert (T : forall n, 0 < n <= length (committed s) -> exists r, merkle_tree_hash H (l_store (p_base p)) 0 n = Ok r /\
      MTH H (firstn n (map ser_tree (committed s))) r).
    { intros n Hn. destruct (C02_tree_head H (map ser_tree (committed s)) _ _ n (Keeps_mt p s K)) as (r & E & M).
      { rewrite map_length. lia. }
      exists r. split; [|exact M]. revert E. unfold get_tree_head.
      destruct (tree_size (l_tree (p_base p)) <? n); [discriminate|]. destruct (n =? 0) eqn:N0; [discriminate|].
      destruct (merkle_tree_hash H (l_store (p_base p)) 0 n) as [x|e]; cbn [bind]; [|discriminate]. intros E. injection E as ->. reflexivity. }
    destruct (T a ltac:(lia)) as (ra & A1 & A2). destruct (T b ltac:(lia)) as (rb & B1 & B2).
    rewrite A1, B1. cbn [bind]. exists ra, rb, pf. split; [reflexivity|].
    assert (X : forall k, k <= length (committed s) -> map ser_tree (firstn k L) = firstn k (map ser_tree (committed s))).
    { intros k Hk. rewrite PL, firstn_app_le by exact Hk. symmetry. apply firstn_map. }
    rewrite !X by lia. split; [exact A2|]. split; [exact B2|].
    rewrite (C01_MTH_functional H _ _ _ A2 F2), (C01_MTH_functional H _ _ _ B2 F3). exact F4.
  Qed.
  (** Whatever proof a correct node gives, from wherever it starts, ends in the root of the
      agreed transactions. *)
  Theorem C51_new_root : forall ledgers lid p s a b c, ledgers lid = Some p -> Keeps p s -> prefix (committed s) L ->
    build_consistency_proof ledgers lid a b = Ok (Some c) -> a < b ->
    c_ledger c = lid /\ c_start c = a /\ c_end c = b /\ b <= length L /\ MTH H (map ser_tree (firstn b L)) (c_new c).
  Proof.
    intros ledgers lid p s a b c EL K (rest & PL) EQ Hab. pose proof (Keeps_size p s K) as ES. revert EQ.
    unfold Seeder_Model.build_consistency_proof. rewrite EL.
    destruct (Nat.ltb_spec b a); [lia|]. destruct (Nat.ltb_spec (size (p_base p)) a); [discriminate|].
    destruct (Nat.ltb_spec (size (p_base p)) b) as [|Hb]; [discriminate|].
    destruct (C02_tree_head H (map ser_tree (committed s)) _ _ b (Keeps_mt p s K)) as (r & E & M).
    { rewrite map_length. lia. }
    assert (E' : merkle_tree_hash H (l_store (p_base p)) 0 b = Ok r).
    { revert E. unfold get_tree_head.
      destruct (tree_size (l_tree (p_base p)) <? b); [discriminate|]. destruct (b =? 0) eqn:N0; [discriminate|].
      destruct (merkle_tree_hash H (l_store (p_base p)) 0 b) as [x|e]; cbn [bind]; [|discriminate]. intros E. injection E as ->. reflexivity. }
    rewrite E'. match goal with |- bind ?x _ = _ -> _ => destruct x as [(old, pf)|] end; cbn [bind]; [|discriminate].
    intros EQ. injection EQ as <-. cbn [c_ledger c_start c_end c_new].
    split; [reflexivity|]. split; [reflexivity|]. split; [reflexivity|]. rewrite PL, app_length. split; [lia|].
    rewrite firstn_app_le by lia. rewrite firstn_map in M. exact M.
  Qed.
  (** Two correct nodes give the same proof, however much longer than the proof their ledgers are. *)
  Theorem C51_proofs_agree : forall ledgers ledgers' lid p p' s s' a b,
    ledgers lid = Some p -> ledgers' lid = Some p' -> Keeps p s -> Keeps p' s' ->
    prefix (committed s) L -> prefix (committed s') L ->
    0 < a -> a <= b -> b <= size (p_base p) -> b <= size (p_base p') ->
    build_consistency_proof ledgers lid a b = build_consistency_proof ledgers' lid a b.
  Proof.
    intros ledgers ledgers' lid p p' s s' a b EL EL' K K' P P' Ha Hab Hb Hb'.
    destruct (C51_proof ledgers lid p s a b EL K P Ha Hab Hb) as (ra & rb & pf & E & M1 & M2 & _).
    destruct (C51_proof ledgers' lid p' s' a b EL' K' P' Ha Hab Hb') as (ra' & rb' & pf' & E' & M1' & M2' & _).
    rewrite E, E'. rewrite (C01_MTH_functional H _ _ _ M1 M1'), (C01_MTH_functional H _ _ _ M2 M2'). do 3 f_equal.
    assert (X : forall lg q u v w r1 r2 pf0, lg lid = Some q -> Keeps q u -> 0 < v -> v <= w -> w <= size (p_base q) ->
      build_consistency_proof lg lid v w = Ok (Some (mkCP lid v w 0 0 r1 r2 pf0)) ->
      pf0 = cpath H (S w) v (firstn w (map (hash_leaf H) (map ser_tree (committed u)))) true).
    { clear -deser_ser ser_nonempty digest_nonempty. intros lg q u v w r1 r2 pf0 EL K Hv Hvw Hw. pose proof (Keeps_size q u K) as ES.
      unfold Seeder_Model.build_consistency_proof. rewrite EL.
      destruct (Nat.ltb_spec w v); [lia|]. destruct (Nat.ltb_spec (size (p_base q)) v); [lia|].
      destruct (Nat.ltb_spec (size (p_base q)) w); [lia|]. destruct (Nat.eqb_spec v 0) as [|Na]; [lia|].
      unfold make_consistency_proof.
      pose proof (Keeps_mt q u K) as MT. apply mt_appends_det in MT. destruct MT as [_ SO]. cbn [snd] in SO.
      pose proof (StoreOf_Reads H _ _ SO) as R.
      rewrite (consistency_proof_ok H (l_store (p_base q)) (map (hash_leaf H) (map ser_tree (committed u))) v w).
      - cbn [bind]. destruct (merkle_tree_hash H (l_store (p_base q)) 0 v); cbn [bind]; [|discriminate].
        destruct (merkle_tree_hash H (l_store (p_base q)) 0 w); cbn [bind]; [|discriminate]. intros E. injection E. intros <- _ _. reflexivity.
      - destruct R as [R1 R2]. split; auto. intros; eapply R2; eauto. rewrite !map_length. lia.
      - lia.
      - rewrite !map_length. lia. }
    rewrite (X _ _ _ _ _ _ _ _ EL K Ha Hab Hb E), (X _ _ _ _ _ _ _ _ EL' K' Ha Hab Hb' E').
    pose proof (Keeps_size p s K) as ES. pose proof (Keeps_size p' s' K') as ES'.
    assert (Y : forall u, prefix (committed u) L -> b <= length (committed u) ->
      firstn b (map (hash_leaf H) (map ser_tree (committed u))) = map (hash_leaf H) (map ser_tree (firstn b L))).
    { intros u (rest & EQ) Hu. rewrite EQ, firstn_app_le by exact Hu. rewrite !firstn_map. reflexivity. }
    rewrite (Y s P), (Y s' P') by lia. reflexivity.
  Qed.

  (** *** Ledger statuses *)
  (** A node that says it has fewer transactions gets the proof from there to here ... *)
  Theorem C51_behind : forall ledgers lid p s n client, ledgers lid = Some p -> Keeps p s -> prefix (committed s) L ->
    0 < n -> n < size (p_base p) ->
    exists ra rb pf, process_ledger_status H B ledgers client lid n = Ok (RProof (mkCP lid n (size (p_base p)) 0 0 ra rb pf)) /\
      MTH H (map ser_tree (firstn n L)) ra /\ MTH H (map ser_tree (firstn (size (p_base p)) L)) rb /\
      verify_tree_consistency H n (size (p_base p)) ra rb pf = Ok tt.
  Proof.
    intros ledgers lid p s n client EL K P Hn Hs.
    destruct (C51_proof ledgers lid p s n (size (p_base p)) EL K P Hn ltac:(lia) ltac:(lia)) as (ra & rb & pf & E & M).
    exists ra, rb, pf. split; [|exact M]. unfold process_ledger_status. rewrite EL.
    destruct (Nat.leb_spec (size (p_base p)) n); [lia|]. rewrite E. reflexivity.
  Qed.
  (** ... one with none gets the root of everything ... *)
  Theorem C51_behind_empty : forall ledgers lid p s client, ledgers lid = Some p -> Keeps p s -> prefix (committed s) L ->
    0 < size (p_base p) ->
    exists r, process_ledger_status H B ledgers client lid 0 = Ok (RProof (mkCP lid 0 (size (p_base p)) 0 0 r r [r])) /\
      MTH H (map ser_tree (firstn (size (p_base p)) L)) r.
  Proof.
    intros ledgers lid p s client EL K (rest & PL) Hs. pose proof (Keeps_size p s K) as ES.
    assert (KK := K). destruct KK as (os & p0 & _ & _ & _ & SH). destruct SH as (_ & (r & R1 & R2) & _).
    destruct (C02_tree_head H (map ser_tree (committed s)) _ _ (size (p_base p)) (Keeps_mt p s K)) as (r' & E & M).
    { rewrite map_length. lia. }
    rewrite firstn_all2 in M by (rewrite map_length; lia).
    rewrite (C01_MTH_functional H _ _ _ M R2) in E. exists r. split.
    - unfold process_ledger_status. rewrite EL. destruct (Nat.leb_spec (size (p_base p)) 0); [lia|].
      unfold Seeder_Model.build_consistency_proof. rewrite EL. destruct (Nat.ltb_spec (size (p_base p)) 0); [lia|].
      rewrite Nat.ltb_irrefl, R1. cbn [Nat.eqb bind].
      revert E. unfold get_tree_head.
      destruct (tree_size (l_tree (p_base p)) <? size (p_base p)); [discriminate|]. destruct (Nat.eqb_spec (size (p_base p)) 0); [lia|].
      destruct (merkle_tree_hash H (l_store (p_base p)) 0 (size (p_base p))) as [x|e]; cbn [bind]; [|discriminate].
      intros E. injection E as ->. reflexivity.
    - rewrite PL, firstn_app_le by lia. rewrite firstn_all2 by lia. exact R2.
  Qed.
  (** ... and one that is not behind gets nothing, or, if it is a client, this node's status. *)
  Theorem C51_not_behind : forall ledgers lid p s n, ledgers lid = Some p -> Keeps p s -> prefix (committed s) L ->
    size (p_base p) <= n ->
    process_ledger_status H B ledgers false lid n = Ok RNothing /\
    exists r, process_ledger_status H B ledgers true lid n = Ok (RStatus (mkLS lid (size (p_base p)) (Some 0) (Some 0) r)) /\
      MTH H (map ser_tree (firstn (size (p_base p)) L)) r.
  Proof.
    intros ledgers lid p s n EL K (rest & PL) Hs. pose proof (Keeps_size p s K) as ES.
    assert (KK := K). destruct KK as (os & p0 & _ & _ & _ & SH). destruct SH as (_ & (r & R1 & R2) & _).
    unfold process_ledger_status, build_ledger_status. rewrite EL. destruct (Nat.leb_spec (size (p_base p)) n); [|lia].
    split; [reflexivity|]. exists r. rewrite R1. split; [reflexivity|].
    rewrite PL, firstn_app_le by lia. rewrite firstn_all2 by lia. exact R2.
  Qed.

  (** *** The handlers of requests *)
  (** A proof is served on request exactly as it is to a node that is behind, but never one
      that starts from an empty ledger. *)
  Theorem C51_serve : forall ledgers ids lid a b, In lid ids -> 0 < a -> 0 < b ->
    serve_consistency_proof H B ledgers ids (Some lid) (Some a) (Some b) =
    bind (build_consistency_proof ledgers lid a b) (fun c => Ok (match c with Some c => RProof c | None => RNothing end)).
  Proof.
    intros ledgers ids lid a b J Ha Hb. unfold serve_consistency_proof.
    assert (X : existsb (Nat.eqb lid) ids = true) by (apply existsb_exists; exists lid; split; [exact J|apply Nat.eqb_refl]).
    rewrite X. destruct (Nat.ltb_spec 0 a); [|lia]. destruct (Nat.ltb_spec 0 b); [|lia]. reflexivity.
  Qed.
  Theorem C51_serve_empty : forall ledgers ids lid b,
    serve_consistency_proof H B ledgers ids lid (Some 0) b = Ok RNothing.
  Proof.
    intros ledgers ids lid b. unfold serve_consistency_proof. destruct lid, b; try reflexivity.
    cbn [Nat.ltb Nat.leb]. rewrite andb_false_r. reflexivity.
  Qed.
End Props.

(** ** Concrete cases *)
Definition made_of (bs us : list N) : res (pledger N) :=
  bind (new_ledger toyH N deser1 ser1) (fun p0 =>
  Ledger_Model.run toyH N ser1 deser1 ser1 p0 [OApply bs; OCommit (length bs); OApply us]).
Lemma numbered_length (bs : list N) : forall n, length (numbered n bs) = length bs.
Proof. induction bs as [|b bs IH]; intros n; [reflexivity|]. cbn. rewrite IH. reflexivity. Qed.
Lemma made_keeps bs us p : made_of bs us = Ok p ->
  Keeps toyH N ser1 deser1 ser1 p (mkLst (numbered 0 bs) (numbered (length bs) us) true).
Proof.
  unfold made_of. intros E. destruct (new_ledger toyH N deser1 ser1) as [p0|] eqn:E0; [|discriminate E]. cbn [bind] in E.
  assert (A : all_allowed (lempty (B := N)) [OApply bs; OCommit (length bs); OApply us]).
  { split; [exact I|]. intros s1 S1. split; [exact I|]. intros s2 S2. split; [exact I|]. intros; exact I. }
  exists [OApply bs; OCommit (length bs); OApply us], p0. split; [exact A|]. split; [exact E0|]. split; [exact E|].
  destruct (new_ok toyH N ser1 deser1 ser1 ser1_ok) as (q0 & F0 & I0). assert (q0 = p0) by congruence. subst q0.
  destruct (run_sim toyH N ser1 deser1 ser1 ser1_ok _ p0 _ I0 A) as (q' & s' & F & St & IQ).
  assert (q' = p) by congruence. subst q'.
  assert (ES : s' = mkLst (numbered 0 bs) (numbered (length bs) us) true).
  { inversion St as [|? ? s1 ? ? S1 T1]; subst. inversion S1; subst. inversion T1 as [|? ? s2 ? ? S2 T2]; subst.
    inversion S2; subst. inversion T2 as [|? ? s3 ? ? S3 T3]; subst. inversion T3; subst. inversion S3; subst.
    cbn [app length Nat.add] in *.
    rewrite firstn_all2 by (rewrite numbered_length; lia). rewrite skipn_all2 by (rewrite numbered_length; lia).
    rewrite numbered_length. cbn. rewrite Nat.add_0_r. reflexivity. }
  subst s'. apply (PInv_Shows toyH N ser1 deser1 ser1 ser1_ok ser1_nonempty toyH_nonempty). exact IQ.
Qed.
Definition made (bs us : list N) : pledger N := match made_of bs us with Ok p => p | Err _ => ex_p4 end.
(** Two correct nodes: one has all eight agreed transactions, one only six, and both have
    applied something more. *)
Definition ex_n8 : pledger N := Eval vm_compute in made exB [20%N].
Definition ex_n6 : pledger N := Eval vm_compute in made (firstn 6 exB) [21; 22]%N.
Example ex_keeps8 : Keeps toyH N ser1 deser1 ser1 ex_n8 (mkLst exL (numbered 8 [20%N]) true).
Proof. apply (made_keeps exB). vm_compute. reflexivity. Qed.
Example ex_keeps6 : Keeps toyH N ser1 deser1 ser1 ex_n6 (mkLst (firstn 6 exL) (numbered 6 [21; 22]%N) true).
Proof. apply (made_keeps (firstn 6 exB)). vm_compute. reflexivity. Qed.
Definition one (p : pledger N) (lid : nat) : option (pledger N) := if lid =? 1 then Some p else None.
Example ex_exT : forall x, In x exL -> exT x = Ok x.
Proof. intros x J. repeat (destruct J as [<-|J]; [reflexivity|]). destruct J. Qed.

(** The reply to a request for 5..8, and what is sent if only two transactions fit. *)
Definition ex_len (r : rep N) : nat := match r_txns N r with Some l => length l | None => 0 end.
Definition ex_ranges (x : res (option (list (rep N)))) : option (list (list nat)) :=
  match x with
  | Ok (Some l) => Some (map (fun r => match r_txns N r with Some t => map (fun y => fst (fst y)) t | None => [] end) l)
  | _ => None
  end.
Example C51_reply_example :
  (exists r, process_catchup_req toyH N deser1 (one ex_n8) (fun x => x) 1 5 8 8 = Ok (Some r) /\
     Catchup_Spec.honest toyH N ser1 exT 1 exL ex_till r 5 4 /\
     ex_ranges (prepare_for_sending (rep N) (rep N) (fun r => r) ex_len 2 (Some (splitter toyH N ex_n8 8)) 8 r)
       = Some [[7; 8]; [5; 6]] /\
     ex_ranges (prepare_for_sending (rep N) (rep N) (fun r => r) ex_len 0 (Some (splitter toyH N ex_n8 8)) 8 r) = None) /\
  process_catchup_req toyH N deser1 (one ex_n6) (fun x => x) 1 5 8 8 = Ok None.
Proof.
  split; [|vm_compute; reflexivity].
  assert (PX : Catchup_Spec.prefix N exL exL) by (exists []; rewrite app_nil_r; reflexivity).
  assert (A1 : 1 <= 5) by lia. assert (A2 : 5 <= 8) by lia.
  assert (A3 : 8 <= t_final ex_till) by (vm_compute; lia).
  assert (A4 : t_final ex_till <= size (p_base ex_n8)) by (vm_compute; lia).
  destruct (C51_reply toyH N ser1 deser1 ser1 ser1_ok ser1_nonempty toyH_nonempty exT (fun x => x) exL
    (one ex_n8) 1 ex_n8 _ ex_till 5 8 eq_refl ex_keeps8 PX ex_good_till ex_exT A1 A2 A3 A4) as (r & E & HO).
  exists r. split; [exact E|]. split; [exact HO|]. clear HO.
  assert (X : match process_catchup_req toyH N deser1 (one ex_n8) (fun x => x) 1 5 8 8 with
              | Ok (Some r) =>
                ex_ranges (prepare_for_sending (rep N) (rep N) (fun r => r) ex_len 2 (Some (splitter toyH N ex_n8 8)) 8 r)
                  = Some [[7; 8]; [5; 6]] /\
                ex_ranges (prepare_for_sending (rep N) (rep N) (fun r => r) ex_len 0 (Some (splitter toyH N ex_n8 8)) 8 r) = None
              | _ => False
              end) by (vm_compute; split; reflexivity).
  change (t_final ex_till) with 8 in E. rewrite E in X. exact X.
Qed.
(** The two nodes agree on the proof from 2 to 6 ... *)
Example C51_agree_example :
  build_consistency_proof toyH N (one ex_n8) 1 2 6 = build_consistency_proof toyH N (one ex_n6) 1 2 6 /\
  exists c, build_consistency_proof toyH N (one ex_n8) 1 2 6 = Ok (Some c).
Proof. split; [vm_compute; reflexivity|]. eexists. vm_compute. reflexivity. Qed.
(** ... but not on the one for an empty ledger: its "old root" is that of the whole ledger
    (line 130), so proofs of one and the same range differ whenever the sizes do. *)
Theorem C51_empty_agree_refuted :
  exists c c', build_consistency_proof toyH N (one ex_n8) 1 0 6 = Ok (Some c) /\
    build_consistency_proof toyH N (one ex_n6) 1 0 6 = Ok (Some c') /\
    c_new c = c_new c' /\ c <> c'.
Proof. do 2 eexists. split; [vm_compute; reflexivity|]. split; [vm_compute; reflexivity|]. split; [reflexivity|discriminate]. Qed.

Print Assumptions C51_get_all.
Print Assumptions C51_reply.
Print Assumptions C51_no_reply.
Print Assumptions C51_no_ledger.
Print Assumptions C51_split.
Print Assumptions C51_proof.
Print Assumptions C51_new_root.
Print Assumptions C51_proofs_agree.
Print Assumptions C51_behind.
Print Assumptions C51_behind_empty.
Print Assumptions C51_not_behind.
Print Assumptions C51_serve.
Print Assumptions C51_serve_empty.
Print Assumptions C51_empty_agree_refuted.
