(** C55: catching up a whole node. *)
From Coq Require Import List Arith NArith Bool Lia.
From Verif Require Import Base Dict Audit_Model Audit_Spec Audit_Proofs Audit_Props NodeLeecher_Model NodeLeecher_Spec NodeLeecher_Proofs.
Import ListNotations.
Local Open Scope res_scope.

(** ** The order
    A catch-up started when the service is at rest goes through the ledgers in turn: (the pool ledger
    if the node has just started,) the audit ledger, the pool ledger, the config ledger, the others
    that are not frozen; each when the one before is reported complete, whatever else is reported in
    between; it is reported complete exactly when the last one is, and the service is then at rest. *)
Theorem C55_order_partial : forall root reg s i w es s' os fr, registered_ok reg -> at_rest s reg -> no_start es -> frozen_is fr es ->
  run root s ((EStart i, w) :: es) = Ok (s', os) ->
  acts os = round (calc_catchup_till root) reg fr i es /\ (In Complete (acts os) -> at_rest s' reg).
Proof. intros root reg s i w es s' os fr RK AR NS FR R. exact (round_run root reg RK i w es s s' os fr AR NS FR R). Qed.

(** in particular, when the catch-up is reported complete every ledger of the plan was reported
    complete, in this order *)
Fixpoint subsequence (l : list nat) (es : list (event * world)) : Prop :=
  match l with
  | [] => True
  | x :: r => match until_done x es with None => False | Some (_, es') => subsequence r es' end
  end.
Lemma in_turn_complete : forall T plan es, In Complete (in_turn T plan es) -> subsequence plan es.
Proof.
  induction plan as [|l r IH]; intros es I; [exact Logic.I|]. cbn [in_turn subsequence] in *.
  destruct I as [I|I]; [unfold start_of in I; destruct (get l T); discriminate I|].
  destruct (until_done l es) as [[w es']|]; [exact (IH es' I) | destruct I].
Qed.
Theorem C55_complete_partial : forall root reg s i w es s' os fr, registered_ok reg -> at_rest s reg -> no_start es -> frozen_is fr es ->
  run root s ((EStart i, w) :: es) = Ok (s', os) -> In Complete (acts os) ->
  subsequence ((if i then [POOL_LEDGER_ID] else []) ++ [AUDIT_LEDGER_ID; POOL_LEDGER_ID; CONFIG_LEDGER_ID] ++ others reg fr) es.
Proof.
  intros root reg s i w es s' os fr RK AR NS FR R C. destruct (C55_order_partial root reg s i w es s' os fr RK AR NS FR R) as [E _]. rewrite E in C.
  assert (FA : forall e, In Complete (from_audit (calc_catchup_till root) reg fr e) -> subsequence ([AUDIT_LEDGER_ID; POOL_LEDGER_ID; CONFIG_LEDGER_ID] ++ others reg fr) e).
  { intros e I. unfold from_audit in I. destruct I as [I|I]; [discriminate I|]. cbn [app subsequence].
    destruct (until_done AUDIT_LEDGER_ID e) as [[w1 e1]|]; [|destruct I]. exact (in_turn_complete _ _ _ I). }
  unfold round in C. destruct i; [|exact (FA es C)]. destruct C as [C|C]; [discriminate C|]. cbn [app subsequence].
  destruct (until_done POOL_LEDGER_ID es) as [[w1 e1]|]; [exact (FA e1 C) | destruct C].
Qed.

(** ** The targets *)
Section Targets.
  Variable root : list bytes -> bytes.

  (** the keys of the recorded sizes are distinct *)
  Lemma write_roots_size : forall lid v a a', write_roots root lid v a = Ok a' -> a_size a' = a_size a.
  Proof. intros lid v a a' E. unfold write_roots in E. destruct (lv_state v); [|discriminate E]. injection E as <-. reflexivity. Qed.
  Lemma fill_one_size : forall lid v last b a a', fill_ledger_root_hash root lid v last b a = Ok a' -> a_size a' = a_size a.
  Proof.
    intros lid v last b a a' E. unfold fill_ledger_root_hash in E.
    destruct (lid =? b_ledger b); [exact (write_roots_size _ _ _ _ E)|]. destruct last as [l|].
    - destruct (get lid (a_size l)) as [n0|].
      + destruct (n0 <? lv_size v); [exact (write_roots_size _ _ _ _ E)|]. destruct (get lid (a_root l)) as [[h|n]|]; injection E as <-; reflexivity.
      + destruct (negb (lv_unc v =? 0)); [exact (write_roots_size _ _ _ _ E)|]. destruct (get lid (a_root l)) as [[h|n]|]; injection E as <-; reflexivity.
    - destruct (negb (lv_size v =? 0)); [exact (write_roots_size _ _ _ _ E)|]. injection E as <-. reflexivity.
  Qed.
  Lemma fill_ledgers_nodup : forall ls fr last b a a', fill_ledgers root ls fr last b a = Ok a' -> NoDup (map fst (a_size a)) -> NoDup (map fst (a_size a')).
  Proof.
    induction ls as [|[lid v] ls IH]; intros fr last b a a' E ND; cbn [fill_ledgers] in E; [injection E as <-; exact ND|].
    destruct ((lid =? AUDIT_LEDGER_ID) || _); [exact (IH _ _ _ _ _ E ND)|].
    destruct (fill_ledger_root_hash root lid v last b (set_size lid (lv_size v) a)) as [a1|] eqn:E1; [|discriminate E]. cbn [bind] in E.
    apply (IH _ _ _ _ _ E). rewrite (fill_one_size _ _ _ _ _ _ E1). cbn [set_size a_size]. apply nodup_set. exact ND.
  Qed.
  Lemma fill_frozen_nodup : forall last fr a, NoDup (map fst (a_size a)) -> NoDup (map fst (a_size (fill_frozen last fr a))).
  Proof.
    intros last fr. unfold fill_frozen. destruct last as [l|]; [|auto]. induction fr as [|[lid n] fr IH]; intros a ND; [exact ND|]. cbn [fold_left]. apply IH.
    destruct (get lid (a_root l)) as [[h|m]|]; [exact ND | | exact ND].
    destruct (get lid (a_state l)); cbn [set_state set_root set_size a_size]; apply nodup_set; exact ND.
  Qed.
  Lemma create_sizes : forall A x a, createL root A x = Ok a -> proper x ->
    NoDup (map fst (a_size a)) /\ forall lid, frozen lid x -> get lid (a_size a) <> None -> get lid (a_root a) <> None.
  Proof.
    intros A [e b] a E [P1 P2]. unfold createL, create in E. cbn [fst snd] in *. set (l := option_map snd (lastA A)) in *.
    set (a0 := mkA _ _ _ _ _ _ _ _) in E.
    destruct (fill_ledgers root (e_ledgers e) (e_frozen e) l b a0) as [a1|] eqn:E1; [|discriminate E]. cbn [bind] in E.
    destruct (fill_primaries (lastA A) (length A) (look A) (b_prim b)) as [ps|]; [|discriminate E]. cbn [bind] in E.
    destruct (fill_node_reg (lastA A) (length A) (look A) (b_reg b)) as [rg|]; [|discriminate E]. cbn [bind] in E. injection E as <-.
    cbn [a_size a_root]. split.
    - apply fill_frozen_nodup. apply (fill_ledgers_nodup _ _ _ _ _ _ E1). constructor.
    - intros lid FR. unfold frozen in FR. cbn [fst] in FR. destruct (get lid (e_frozen e)) as [n|] eqn:G; [|congruence].
      destruct (fill_frozen_get l (e_frozen e) P2 a1) as (F & _). destruct (F lid) as [F1 F2]. rewrite F1, F2, G.
      destruct (fill_ledgers_get root _ _ _ _ P1 _ _ E1) as (K & _). destruct (K lid) as [K1 K2].
      assert (N1 : get lid (a_size a1) = None).
      { rewrite K1. unfold skipped. rewrite G, orb_true_r. destruct (get lid (e_ledgers e)); reflexivity. }
      destruct l as [y|]; [|rewrite N1; congruence]. destruct (get lid (a_root y)) as [[h|m]|]; [rewrite N1; congruence | discriminate | rewrite N1; congruence].
  Qed.

  (** what the loop gives for one ledger *)
  Definition hash_for (w : world) (a : adata) (lid n : nat) (own : list bytes) : option (option bytes) :=
    match get lid (a_root a) with
    | None => if n =? length own then Some (if 0 <? n then Some (root own) else None) else None
    | Some (Val h) => Some (Some h)
    | Some (Back k) => match by_seq (w_audit w) (length (w_audit w) - k) with
                       | Some a' => match get lid (a_root a') with Some (Val h) => Some (Some h) | _ => None end
                       | None => None
                       end
    end.
  Lemma calc_loop_cons : forall w a lid n r acc, calc_loop root w a ((lid, n) :: r) acc =
    match get lid (w_own w) with
    | None => calc_loop root w a r acc
    | Some own => match hash_for w a lid n own with
                  | None => None
                  | Some h => calc_loop root w a r (set lid (mkTill (length own) n h) acc)
                  end
    end.
  Proof.
    intros w a lid n r acc. cbn [calc_loop]. destruct (get lid (w_own w)) as [own|]; [|reflexivity]. unfold hash_for.
    destruct (get lid (a_root a)) as [[h|k]|]; [reflexivity | | destruct (n =? length own); reflexivity].
    destruct (by_seq (w_audit w) (length (w_audit w) - k)) as [a'|]; [|reflexivity].
    destruct (get lid (a_root a')) as [[h|k']|]; reflexivity.
  Qed.
  Lemma calc_loop_get : forall w a sizes acc, NoDup (map fst sizes) ->
    (forall lid n own, In (lid, n) sizes -> get lid (w_own w) = Some own -> hash_for w a lid n own <> None) ->
    exists d, calc_loop root w a sizes acc = Some d /\
      forall lid, get lid d = match get lid sizes, get lid (w_own w) with
                              | Some n, Some own => match hash_for w a lid n own with Some h => Some (mkTill (length own) n h) | None => get lid acc end
                              | _, _ => get lid acc
                              end.
  Proof.
    intros w a. induction sizes as [|[l n] r IH]; intros acc ND H.
    - exists acc. split; [reflexivity|]. intros lid. reflexivity.
    - inversion ND as [|? ? N1 N2]; subst. rewrite calc_loop_cons.
      assert (H' : forall lid n own, In (lid, n) r -> get lid (w_own w) = Some own -> hash_for w a lid n own <> None) by (intros lid m own I; apply H; right; exact I).
      assert (NR : get l r = None) by (apply get_none; exact N1).
      destruct (get l (w_own w)) as [own|] eqn:G.
      + destruct (hash_for w a l n own) as [h|] eqn:EH; [|exfalso; exact (H l n own (or_introl eq_refl) G EH)].
        destruct (IH (set l (mkTill (length own) n h) acc) N2 H') as (d & E & D). exists d. split; [exact E|]. intros lid. rewrite (D lid). cbn [get].
        rewrite get_set. destruct (Nat.eqb_spec lid l) as [->|NE].
        * rewrite NR, G, EH. reflexivity.
        * reflexivity.
      + destruct (IH acc N2 H') as (d & E & D). exists d. split; [exact E|]. intros lid. rewrite (D lid). cbn [get].
        destruct (Nat.eqb_spec lid l) as [->|NE]; [rewrite NR, G; reflexivity | reflexivity].
  Qed.

  (** The targets of a node whose audit ledger describes the batches [before ++ [x]]: for every ledger
      it has that took part in the last batch, from its own size to the size after that batch; and the
      root is that of the ledger's content after that batch, if the ledger has taken part in every
      batch so far. Missing: ledgers without a root in the audit ledger, of a size other than the
      node's own; if there is one, there are no targets at all. *)
  Theorem C55_targets_partial : forall before x A w, Built root (before ++ [x]) A ->
    Forall proper (before ++ [x]) -> grows (before ++ [x]) -> stays_frozen (before ++ [x]) -> w_audit w = A ->
    (forall lid own v, get lid (w_own w) = Some own -> live lid x v ->
       length own = length (lv_txns v) \/ (lv_txns v <> [] /\ forall y, In y before -> exists u, live lid y u)) ->
    forall lid own v, get lid (w_own w) = Some own -> live lid x v ->
    exists h, get lid (calc_catchup_till root w) = Some (mkTill (length own) (length (lv_txns v)) h) /\
      (lv_txns v <> [] -> (forall y, In y before -> exists u, live lid y u) -> h = Some (root (lv_txns v))) /\
      (h = Some (root (lv_txns v)) \/ length own = length (lv_txns v)).
  Proof.
    intros before x A w Bt PR GR SF EA HO.
    destruct (built_snoc_inv root _ _ _ Bt) as (A' & a & -> & Bt' & EC).
    assert (PX : proper x) by (apply Forall_app in PR as [_ PR]; inversion PR; assumption).
    destruct (create_sizes A' x a EC PX) as [ND FZ].
    assert (LN := built_length root _ _ Bt). rewrite !app_length in LN. cbn [length] in LN.
    assert (Ex : nth_error (before ++ [x]) (length before) = Some x) by apply nth_snoc_last.
    assert (Ea : nth_error (A' ++ [a]) (length before) = Some a) by (replace (length before) with (length A') by lia; apply nth_snoc_last).
    assert (GRT := roots_built root _ _ Bt PR GR SF _ x a Ex Ea).
    assert (BACK : forall lid n a' v, 0 < n <= length before -> nth_error (A' ++ [a]) (length before - n) = Some a' -> ledger_root_of lid a' = Some (Val v) ->
               by_seq (w_audit w) (length (w_audit w) - n) = Some a').
    { intros lid n a' v L N V. rewrite EA, app_length. cbn [length]. replace (length A' + 1 - n) with (S (length before - n)) by lia. exact N. }
    assert (STAND : forall lid own v, stands_for (ledger_root_of lid) (A' ++ [a]) (length before) (root v) -> forall n, hash_for w a lid n own = Some (Some (root v))).
    { intros lid own v (a1 & Q1 & Q2) n. rewrite Ea in Q1. injection Q1 as <-. unfold hash_for. unfold ledger_root_of at 1 2 in Q2.
      destruct Q2 as [->|(k & a' & -> & Q3 & Q4 & Q5)]; [reflexivity|]. rewrite (BACK lid k a' _ Q3 Q4 Q5). unfold ledger_root_of in Q5. rewrite Q5. reflexivity. }
    assert (OKH : forall lid n own, In (lid, n) (a_size a) -> get lid (w_own w) = Some own -> hash_for w a lid n own <> None).
    { intros lid n own I G. apply (in_get lid (a_size a) n ND) in I. destruct (GRT lid) as (G1 & G2 & G3).
      destruct (live_dec lid x) as [(v & Lv)|NL].
      - destruct (G1 v Lv) as [GS GV]. destruct (get lid (a_root a)) as [f|] eqn:ER.
        + rewrite (STAND lid own _ (GV ltac:(discriminate)) n). discriminate.
        + unfold hash_for. rewrite ER. rewrite I in GS. injection GS as ->. destruct (HO lid own v G Lv) as [EQ|[NE AL]].
          * unfold lv_size. rewrite <- EQ, Nat.eqb_refl. discriminate.
          * exfalso. apply (roots_present root _ _ Bt PR GR _ x a lid v Ex Ea Lv); [|exact NE | exact ER].
            intros k y LK Ey. apply AL. rewrite nth_error_app1 in Ey by exact LK. exact (nth_error_In _ _ Ey).
      - destruct (frozen_dec lid x) as [FR|NF].
        + assert (ER : get lid (a_root a) <> None) by (apply (FZ lid FR); congruence).
          destruct (G3 FR ER) as (j & y & u & _ & _ & _ & _ & SF'). rewrite (STAND lid own _ SF' n). discriminate.
        + destruct (G2 NL NF) as [X _]. congruence. }
    intros lid own v GO Lv. destruct (GRT lid) as (G1 & _). destruct (G1 v Lv) as [GS GV].
    unfold calc_catchup_till. rewrite EA, app_length. cbn [length]. rewrite Nat.add_1_r. cbn [by_seq].
    assert (NL : nth_error (A' ++ [a]) (length A') = Some a) by apply nth_snoc_last. rewrite NL.
    destruct (calc_loop_get w a (a_size a) [] ND OKH) as (d & E & D). rewrite E, (D lid), GS, GO.
    destruct (hash_for w a lid (lv_size v) own) as [h|] eqn:EH; [|exfalso; exact (OKH lid (lv_size v) own (get_in _ _ _ GS) GO EH)].
    exists h. split; [reflexivity|]. split.
    - intros NE AL. assert (ER : get lid (a_root a) <> None).
      { apply (roots_present root _ _ Bt PR GR _ x a lid v Ex Ea Lv); [|exact NE].
        intros k y LK Ey. apply AL. rewrite nth_error_app1 in Ey by exact LK. exact (nth_error_In _ _ Ey). }
      rewrite (STAND lid own _ (GV ER) (lv_size v)) in EH. injection EH as <-. reflexivity.
    - destruct (get lid (a_root a)) as [f|] eqn:ER.
      + rewrite (STAND lid own _ (GV ltac:(discriminate)) (lv_size v)) in EH. injection EH as <-. left. reflexivity.
      + right. unfold hash_for in EH. rewrite ER in EH. destruct (Nat.eqb_spec (lv_size v) (length own)) as [EQ|]; [symmetry; exact EQ | discriminate EH].
  Qed.

  (** ** Who has what
      Nodes that reported how many audit transactions they have are taken to have of a ledger what it
      contained after the batch of that number (or after the last batch the node knows itself). *)
  Theorem C55_sizes : forall L A w s lid nodes z, Built root L A -> Forall proper L -> grows L -> stays_frozen L -> w_audit w = A ->
    get lid (s_sizes s) = None \/ get lid (s_sizes s) = Some None -> get AUDIT_LEDGER_ID (s_sizes s) = Some (Some nodes) ->
    calc_nodes_ledger_sizes w s lid = Ok z ->
    map fst z = map fst nodes /\
    forall i n k q, nth_error nodes i = Some (n, q) -> nth_error z i = Some (n, k) ->
      exists x, nth_error L (Nat.min q (length L) - 1) = Some x /\ forall v, live lid x v -> k = length (lv_txns v).
  Proof.
    intros L A w s lid nodes z Bt PR GR SF EA H1 H2 E. unfold calc_nodes_ledger_sizes in E. rewrite H2 in E.
    assert (E' : sizes_loop (w_audit w) lid nodes = Ok z) by (destruct H1 as [H1|H1]; rewrite H1 in E; exact E). clear E. rewrite EA in E'.
    assert (LN := built_length root _ _ Bt). clear H1 H2 EA. revert z E'.
    induction nodes as [|[n q] nodes IH]; intros z E; cbn [sizes_loop] in E.
    - injection E as <-. split; [reflexivity|]. intros [|i]; discriminate.
    - destruct (by_seq A (Nat.min q (length A))) as [a|] eqn:EB; [|discriminate E].
      destruct (sizes_loop A lid nodes) as [r|] eqn:ER; [|discriminate E]. cbn [bind] in E. injection E as <-.
      destruct (IH r eq_refl) as [K D]. split; [cbn [map fst]; f_equal; exact K|].
      intros [|i] n' k q' E1 E2; [|exact (D i n' k q' E1 E2)]. cbn [nth_error] in E1, E2. injection E1 as <- <-. injection E2 as <-.
      destruct (Nat.min q (length A)) as [|j] eqn:EM; [discriminate EB|]. cbn [by_seq] in EB. rewrite <- LN, EM.
      replace (S j - 1) with j by lia. destruct (nth_error L j) as [x|] eqn:EX; [|apply nth_error_None in EX; lia].
      exists x. split; [reflexivity|]. intros v Lv. destruct (roots_built root _ _ Bt PR GR SF j x a EX EB lid) as (G1 & _).
      destruct (G1 v Lv) as [GS _]. unfold get_or. rewrite GS. reflexivity.
  Qed.
End Targets.

(** ** Nothing raises *)
Section Raises.
  Variable root : list bytes -> bytes.
  Variable reg : list nat.
  Hypothesis reg_ok : registered_ok reg.

  Lemma in_reg : forall s l, map fst (s_leechers s) = reg -> In l reg -> exists x, get l (s_leechers s) = Some x.
  Proof. intros s l K I. rewrite <- K in I. apply in_keys in I. destruct (get l (s_leechers s)) as [x|]; [exists x; reflexivity | congruence]. Qed.
  Lemma leecher_start_ok : forall s l b t z, map fst (s_leechers s) = reg -> In l reg -> exists s' os, leecher_start s l b t z = Ok (s', os) /\
    s_sizes s' = match t with None => s_sizes s | Some _ => set l z (s_sizes s) end.
  Proof.
    intros s l b t z K I. unfold leecher_start. destruct (in_reg s l K I) as (x & ->). destruct t as [t'|]; do 2 eexists; split; reflexivity.
  Qed.
  Lemma by_seq_ok : forall A k, A <> [] -> 0 < k -> exists a, by_seq A (Nat.min k (length A)) = Some a.
  Proof.
    intros A k NE P. destruct A as [|a0 A]; [congruence|]. destruct (Nat.min k (length (a0 :: A))) as [|j] eqn:E; [cbn [length] in E; lia|].
    cbn [by_seq]. destruct (nth_error (a0 :: A) j) as [a|] eqn:N; [exists a; reflexivity|]. apply nth_error_None in N. lia.
  Qed.
  Lemma sizes_loop_ok : forall A l z, A <> [] -> (forall n k, In (n, k) z -> 0 < k) -> exists r, sizes_loop A l z = Ok r.
  Proof.
    intros A l z NE. induction z as [|[n k] z IH]; intros P; [exists []; reflexivity|]. cbn [sizes_loop].
    destruct (by_seq_ok A k NE (P n k (or_introl eq_refl))) as (a & ->). destruct (IH ltac:(intros n' k' I; apply (P n' k'); right; exact I)) as (r & ->).
    eexists. reflexivity.
  Qed.

  (** the service can start any ledger: the sizes of the nodes can be computed *)
  Definition can_size (w : world) (s : svc) : Prop :=
    get AUDIT_LEDGER_ID (s_sizes s) <> None /\ w_audit w <> [] /\
    forall z, get AUDIT_LEDGER_ID (s_sizes s) = Some (Some z) -> forall n k, In (n, k) z -> 0 < k.
  Lemma catchup_ok : forall w s l, map fst (s_leechers s) = reg -> In l reg -> s_till s = [] \/ can_size w s ->
    exists s' os, catchup_ledger w s l = Ok (s', os) /\ (l <> AUDIT_LEDGER_ID \/ s_till s = [] -> get AUDIT_LEDGER_ID (s_sizes s') = get AUDIT_LEDGER_ID (s_sizes s)).
  Proof.
    intros w s l K I H. unfold catchup_ledger. destruct (in_reg s l K I) as (x & ->).
    destruct (get l (s_till s)) as [t|] eqn:GT.
    - destruct H as [H|(C1 & C2 & C3)]; [rewrite H in GT; discriminate GT|].
      assert (Z : exists z, calc_nodes_ledger_sizes w s l = Ok z).
      { unfold calc_nodes_ledger_sizes. destruct (get l (s_sizes s)) as [[z|]|]; [exists z; reflexivity | |];
          (destruct (get AUDIT_LEDGER_ID (s_sizes s)) as [[z|]|]; [exact (sizes_loop_ok _ l z C2 (C3 z eq_refl)) | exists []; reflexivity | congruence]). }
      destruct Z as (z & ->). cbn [bind]. destruct (leecher_start_ok s l true (Some t) (Some z) K I) as (s' & os & E & ES).
      exists s', os. split; [exact E|]. intros [N|N]; [|rewrite N in GT; discriminate GT]. rewrite ES, get_set.
      destruct (Nat.eqb_spec AUDIT_LEDGER_ID l); [congruence | reflexivity].
    - destruct (leecher_start_ok s l true None None K I) as (s' & os & E & ES). exists s', os. split; [exact E|]. intros _. rewrite ES. reflexivity.
  Qed.

  (** what holds between two events; [past]: the events since the start *)
  Record fine (fr : list nat) (past todo : list (event * world)) (s : svc) : Prop := mkFine {
    fi_keys : map fst (s_leechers s) = reg;
    fi_proof : (exists t z w, In (EProof AUDIT_LEDGER_ID t z, w) past) -> get AUDIT_LEDGER_ID (s_sizes s) <> None;
    fi_pos : forall z, get AUDIT_LEDGER_ID (s_sizes s) = Some (Some z) -> forall n k, In (n, k) z -> 0 < k;
    fi_till : s_till s <> [] -> get AUDIT_LEDGER_ID (s_sizes s) <> None /\ forall l n w, In (EDone l n, w) todo -> w_audit w <> [];
    fi_early : (s_state s = PreSyncingPool \/ s_state s = SyncingAudit) -> s_till s = [];
    fi_cur : match s_state s with SyncingOthers => exists l, s_cur s = Some l /\ In l (others reg fr) | _ => s_cur s = None end
  }.

  Lemma others_split : forall fr l, In l (others reg fr) -> exists a b, others reg fr = a ++ l :: b.
  Proof. intros fr l I. apply in_split in I. exact I. Qed.
  Lemma others_reg : forall fr l, In l (others reg fr) -> In l reg /\ l <> AUDIT_LEDGER_ID /\ l <> POOL_LEDGER_ID.
  Proof.
    intros fr l I. apply filter_In in I as [I B]. split; [exact I|].
    apply negb_true_iff, orb_false_iff in B as [B _]. apply orb_false_iff in B as [B _]. apply orb_false_iff in B as [B1 B2].
    split; apply Nat.eqb_neq; assumption.
  Qed.

  (** going on to the next of the other ledgers *)
  Lemma next_fine : forall fr past todo w s, fine fr past todo s -> w_frozen w = fr -> (s_till s = [] \/ w_audit w <> []) ->
    s_state s = SyncingConfig \/ s_state s = SyncingOthers ->
    exists s' os, sync_next_ledger w (with_state s SyncingOthers) = Ok (s', os) /\ fine fr past todo s'.
  Proof.
    intros fr past todo w s F FW HT HS. destruct F as [K FP FQ FT FE FC].
    assert (G : exists nx, get_next_ledger w (with_state s SyncingOthers) (s_cur s) = Ok nx /\ forall l, nx = Some l -> In l (others reg fr)).
    { destruct HS as [HS|HS]; rewrite HS in FC.
      - rewrite FC. exists (match others reg (w_frozen w) with [] => None | i :: _ => Some i end).
        split; [exact (next_first reg reg_ok w (with_state s SyncingOthers) K)|]. rewrite FW. intros l E. destruct (others reg fr); [discriminate E|]. injection E as ->. left. reflexivity.
      - destruct FC as (l & -> & IL). destruct (others_split fr l IL) as (a & b & EO).
        exists (match b with [] => None | i :: _ => Some i end).
        split; [exact (next_after reg reg_ok w (with_state s SyncingOthers) a l b K ltac:(rewrite FW; exact EO))|].
        intros l' E. destruct b as [|i b]; [discriminate E|]. injection E as <-. rewrite EO. apply in_or_app. right. right. left. reflexivity. }
    destruct G as (nx & G & IN). unfold sync_next_ledger. cbn [with_state s_cur]. rewrite G. cbn [bind]. destruct nx as [l|].
    - destruct (others_reg fr l (IN l eq_refl)) as (IR & NA & NP).
      set (s1 := with_cur (with_state s SyncingOthers) (Some l)).
      assert (CS : s_till s1 = [] \/ can_size w s1).
      { destruct HT as [HT|HT]; [left; exact HT|]. destruct (s_till s) as [|tt rr] eqn:ET; [left; exact ET|]. right. unfold can_size, s1. cbn [with_cur with_state s_sizes].
        split; [exact (proj1 (FT ltac:(discriminate)))|]. split; [exact HT | exact FQ]. }
      destruct (catchup_ok w s1 l K IR CS) as (s' & os & E & ES). exists s', os. split; [exact E|].
      destruct (catchup_eff reg w s1 l s' os K E) as (K' & S' & T' & C' & _). specialize (ES (or_introl NA)). unfold s1 in *. cbn [with_cur with_state s_state s_till s_cur s_sizes] in *.
      constructor; [exact K' | rewrite ES; exact FP | rewrite ES; exact FQ | rewrite ES, T'; exact FT | rewrite S'; intros [X|X]; discriminate X |].
      rewrite S', C'. exists l. split; [reflexivity | exact (IN l eq_refl)].
    - do 2 eexists. split; [reflexivity|]. constructor; cbn [with_cur with_state s_leechers s_sizes s_till s_state s_cur];
        [exact K | exact FP | exact FQ | exact FT | intros [X|X]; discriminate X | reflexivity].
  Qed.

  Lemma enter_fine : forall fr past todo w s x l, map fst (s_leechers s) = reg ->
    ((exists t z w, In (EProof AUDIT_LEDGER_ID t z, w) past) -> get AUDIT_LEDGER_ID (s_sizes s) <> None) ->
    (forall z, get AUDIT_LEDGER_ID (s_sizes s) = Some (Some z) -> forall n k, In (n, k) z -> 0 < k) ->
    (s_till s <> [] -> get AUDIT_LEDGER_ID (s_sizes s) <> None /\ forall l n w, In (EDone l n, w) todo -> w_audit w <> []) ->
    In (x, l) [(SyncingAudit, AUDIT_LEDGER_ID); (SyncingPool, POOL_LEDGER_ID); (SyncingConfig, CONFIG_LEDGER_ID)] ->
    s_cur s = None -> (s_till s = [] \/ (w_audit w <> [] /\ x <> SyncingAudit)) -> exists s' os, enter_state w s x = Ok (s', os) /\ fine fr past todo s'.
  Proof.
    intros fr past todo w s x l K FP FQ FT I C HT. destruct reg_ok as (_ & IA & IP & IC).
    assert (IR : In l reg) by (destruct I as [I|[I|[I|[]]]]; injection I as <- <-; assumption).
    assert (EE : enter_state w s x = catchup_ledger w (with_state s x) l) by (destruct I as [I|[I|[I|[]]]]; injection I as <- <-; reflexivity).
    assert (CS : s_till (with_state s x) = [] \/ can_size w (with_state s x)).
    { cbn [with_state s_till]. destruct HT as [HT|[HT _]]; [left; exact HT|]. destruct (s_till s) as [|tt rr] eqn:ET; [left; reflexivity|]. right. unfold can_size. cbn [with_state s_sizes].
      split; [exact (proj1 (FT ltac:(discriminate)))|]. split; [exact HT | exact FQ]. }
    destruct (catchup_ok w (with_state s x) l K IR CS) as (s' & os & E & ES). exists s', os. rewrite EE. split; [exact E|].
    destruct (catchup_eff reg w (with_state s x) l s' os K E) as (K' & S' & T' & C' & _). cbn [with_state s_state s_till s_cur s_sizes] in *.
    assert (ES' : get AUDIT_LEDGER_ID (s_sizes s') = get AUDIT_LEDGER_ID (s_sizes s)).
    { apply ES. destruct I as [I|[I|[I|[]]]]; injection I as <- <-; [right; destruct HT as [HT|[_ HT]]; [exact HT | congruence] | left; discriminate | left; discriminate]. }
    constructor; [exact K' | rewrite ES'; exact FP | rewrite ES'; exact FQ | rewrite ES', T'; exact FT | |].
    - rewrite S', T'. intros X. destruct HT as [HT|[_ HT]]; [exact HT|]. destruct I as [I|[I|[I|[]]]]; injection I as <- <-; destruct X; congruence.
    - rewrite S', C'. destruct I as [I|[I|[I|[]]]]; injection I as <- <-; exact C.
  Qed.

  Lemma event_fine : forall fr past e w todo s, fine fr past ((e, w) :: todo) s -> reasonable reg (past ++ (e, w) :: todo) ->
    no_start ((e, w) :: todo) -> frozen_is fr ((e, w) :: todo) ->
    exists s' os, step root w s e = Ok (s', os) /\ fine fr (past ++ [(e, w)]) todo s'.
  Proof.
    intros fr past e w todo s F (R1 & R2 & R3 & R4 & R5) NS FR. pose proof F as [K FP FQ FT FE FC].
    assert (HERE : In (e, w) (past ++ (e, w) :: todo)) by (apply in_or_app; right; left; reflexivity).
    assert (FT' : s_till s <> [] -> get AUDIT_LEDGER_ID (s_sizes s) <> None /\ forall l n w0, In (EDone l n, w0) todo -> w_audit w0 <> []).
    { intros X. destruct (FT X) as [X1 X2]. split; [exact X1|]. intros l n w0 I. exact (X2 l n w0 (or_intror I)). }
    destruct e as [i|lid t z|lid n].
    - exfalso. exact (NS i w (or_introl eq_refl)).
    - cbn [step]. destruct (in_reg s lid K (R1 lid t z w HERE)) as (x & G). rewrite G. do 2 eexists. split; [reflexivity|].
      constructor; cbn [with_sizes with_leecher s_leechers s_sizes s_till s_state s_cur].
      + rewrite set_keys_same by congruence. exact K.
      + intros (t0 & z0 & w0 & I). rewrite get_set. destruct (AUDIT_LEDGER_ID =? lid) eqn:EQ; [discriminate|]. apply FP.
        apply in_app_or in I as [I|[I|[]]]; [exists t0, z0, w0; exact I|]. injection I as -> _ _ _. discriminate EQ.
      + intros z0. rewrite get_set. destruct (Nat.eqb_spec AUDIT_LEDGER_ID lid) as [<-|]; [|apply FQ]. intros E. injection E as ->. exact (R4 t z0 w HERE).
      + intros X. destruct (FT' X) as [X1 X2]. split; [|exact X2]. rewrite get_set. destruct (_ =? lid); [discriminate | exact X1].
      + exact FE.
      + exact FC.
    - cbn [step]. destruct (in_reg s lid K (R2 lid n w HERE)) as (x & G). rewrite G.
      set (s1 := with_leecher s lid (mkLe synced None n)).
      assert (PS : (exists t z w0, In (EProof AUDIT_LEDGER_ID t z, w0) (past ++ [(EDone lid n, w)])) -> get AUDIT_LEDGER_ID (s_sizes s) <> None).
      { intros (t0 & z0 & w0 & I). apply FP. apply in_app_or in I as [I|[I|[]]]; [exists t0, z0, w0; exact I | discriminate I]. }
      assert (F1 : fine fr (past ++ [(EDone lid n, w)]) todo s1).
      { constructor; unfold s1; cbn [with_leecher s_leechers s_sizes s_till s_state s_cur]; [rewrite set_keys_same by congruence; exact K | exact PS | exact FQ | exact FT' | exact FE | exact FC]. }
      assert (HT : s_till s1 = [] \/ w_audit w <> []).
      { change (s_till s1) with (s_till s). destruct (s_till s) as [|tt rr] eqn:ET; [left; reflexivity|]. right.
        exact (proj2 (FT ltac:(discriminate)) lid n w (or_introl eq_refl)). }
      assert (FW : lid <> AUDIT_LEDGER_ID -> lid <> POOL_LEDGER_ID -> w_frozen w = fr) by exact (FR lid n w (or_introl eq_refl)). pose proof F1 as F1'.
      unfold on_complete. rewrite validate_awaited. destruct (awaited s1) as [c|] eqn:AW; [|do 2 eexists; split; [reflexivity | exact F1]].
      destruct (Nat.eqb_spec lid c) as [<-|NE]; cbn [negb]; [|do 2 eexists; split; [reflexivity | exact F1]].
      destruct F1 as [K1 FP1 FQ1 FT1 FE1 FC1']. destruct (s_state s1) eqn:ST.
      + unfold awaited in AW. rewrite ST in AW. discriminate AW.
      + apply (enter_fine fr _ todo w s1 SyncingAudit AUDIT_LEDGER_ID K1 FP1 FQ1 FT1); [left; reflexivity | exact FC1' | left; apply FE1; left; reflexivity].
      + assert (LA : lid = AUDIT_LEDGER_ID) by (unfold awaited in AW; rewrite ST in AW; injection AW as <-; reflexivity).
        assert (AP : get AUDIT_LEDGER_ID (s_sizes s) <> None).
        { apply FP. destruct (R3 past n w todo ltac:(rewrite LA; reflexivity)) as (t0 & z0 & w0 & I). exists t0, z0, w0. exact I. }
        assert (WT : calc_catchup_till root w <> [] -> w_audit w <> []) by (intros X Y; apply X; unfold calc_catchup_till; rewrite Y; reflexivity).
        apply (enter_fine fr _ todo w (mkSvc SyncingAudit (calc_catchup_till root w) (s_sizes s1) (s_cur s1) (s_leechers s1)) SyncingPool POOL_LEDGER_ID K1 FP1 FQ1).
        * intros X. split; [exact AP|]. intros l' n' w' I. exact (R5 past lid n w todo l' n' w' eq_refl I (WT X)).
        * right. left. reflexivity.
        * exact FC1'.
        * cbn [s_till]. destruct (calc_catchup_till root w) as [|tt rr] eqn:ET; [left; reflexivity | right; split; [apply WT; discriminate | discriminate]].
      + apply (enter_fine fr _ todo w s1 SyncingConfig CONFIG_LEDGER_ID K1 FP1 FQ1 FT1); [right; right; left; reflexivity | exact FC1' |].
        destruct HT as [HT|HT]; [left; exact HT | right; split; [exact HT | discriminate]].
      + unfold awaited in AW. rewrite ST in AW. injection AW as <-. exact (next_fine fr _ todo w s1 F1' (FW ltac:(discriminate) ltac:(discriminate)) HT (or_introl ST)).
      + assert (ES : sync_next_ledger w s1 = sync_next_ledger w (with_state s1 SyncingOthers)) by (unfold with_state; rewrite <- ST; destruct s1; reflexivity).
        rewrite ES. destruct FC1' as (l & EC & IL). unfold awaited in AW. rewrite ST, EC in AW. injection AW as ->. destruct (others_reg fr lid IL) as (_ & NA & NP).
        exact (next_fine fr _ todo w s1 F1' (FW NA NP) HT (or_intror ST)).
  Qed.

  Lemma run_fine : forall fr todo past s, fine fr past todo s -> reasonable reg (past ++ todo) -> no_start todo -> frozen_is fr todo ->
    exists s' os, run root s todo = Ok (s', os).
  Proof.
    intros fr. induction todo as [|[e w] todo IH]; intros past s F R NS FR; [exists s, []; reflexivity|].
    destruct (event_fine fr past e w todo s F R NS FR) as (s1 & o1 & E1 & F1).
    destruct (IH (past ++ [(e, w)]) s1 F1) as (s2 & o2 & E2).
    - rewrite <- app_assoc. exact R.
    - exact (no_start_tl _ _ NS).
    - exact (frozen_tl _ _ _ FR).
    - exists s2, (o1 ++ o2). cbn [run]. rewrite E1. cbn [bind fst snd]. rewrite E2. reflexivity.
  Qed.

  Lemma reset_keys : forall (d : dict leecher) x, map fst (map (fun y => (fst y, x : leecher)) d) = map fst d.
  Proof. induction d as [|y d IH]; intros x; [reflexivity|]. cbn [map fst]. rewrite IH. reflexivity. Qed.

  (** a catch-up started at rest, with reports as the per-ledger services make them, never raises *)
  Theorem C55_no_exception : forall s i w es fr, at_rest s reg -> no_start es -> frozen_is fr es -> reasonable reg es ->
    exists s' os, run root s ((EStart i, w) :: es) = Ok (s', os).
  Proof.
    intros s i w es fr (A1 & A2 & A3) NS FR R.
    set (s1 := mkSvc (s_state s) [] [] (s_cur s) (map (fun x => (fst x, mkLe not_synced None 0)) (s_leechers s))).
    assert (K1 : map fst (s_leechers s1) = reg) by (unfold s1; cbn [s_leechers]; rewrite reset_keys; assumption).
    assert (C1 : s_cur s1 = None) by assumption.
    assert (X : exists s2 o, start w s i = Ok (s2, o) /\ fine fr [] es s2).
    { unfold start. fold s1. destruct i.
      - destruct reg_ok as (_ & _ & IP & _). destruct (leecher_start_ok (with_state s1 PreSyncingPool) POOL_LEDGER_ID false None None K1 IP) as (s2 & o & E & ES).
        exists s2, o. split; [exact E|]. destruct (leecher_start_eff reg (with_state s1 PreSyncingPool) _ _ _ _ _ _ K1 E) as (K' & S' & T' & C' & _). cbn [with_state s_sizes s_state s_till s_cur] in *.
        constructor; [exact K' | intros (t & z & w' & []) | rewrite ES; discriminate | rewrite T'; intros Y; exfalso; apply Y; reflexivity | rewrite T'; reflexivity | rewrite S', C'; exact C1].
      - apply (enter_fine fr [] es w s1 SyncingAudit AUDIT_LEDGER_ID K1); [intros (t & z & w' & []) | discriminate | intros Y; exfalso; apply Y; reflexivity | left; reflexivity | exact C1 | left; reflexivity]. }
    destruct X as (s2 & o & E & F). destruct (run_fine fr es [] s2 F R NS FR) as (s3 & o' & E').
    exists s3, (o ++ o'). cbn [run step]. rewrite E. cbn [bind fst snd]. rewrite E'. reflexivity.
  Qed.
End Raises.

(** ** How much was caught up
    The number of transactions a catch-up has fetched, by which the node decides whether another one
    is needed (node.py:1886-1892): what was last reported for each ledger. *)
Section Counts.
  Variable root : list bytes -> bytes.
  Definition num (s : svc) (l : nat) : nat := match get l (s_leechers s) with Some x => le_num x | None => 0 end.
  Definition counted (past : list (event * world)) (s : svc) : Prop :=
    forall l, num s l = last_num l past \/ (awaited s = Some l /\ num s l = 0).
  Lemma last_num_snoc : forall l es e w, last_num l (es ++ [(e, w)]) = match e with EDone l' k => if l' =? l then k else last_num l es | _ => last_num l es end.
  Proof. intros l es e w. unfold last_num. rewrite fold_left_app. reflexivity. Qed.

  (** starting ledger [l], and waiting for it *)
  Lemma start_counts : forall s l b t z s' os, leecher_start s l b t z = Ok (s', os) ->
    s_state s' = s_state s /\ s_cur s' = s_cur s /\ forall k, num s' k = if k =? l then 0 else num s k.
  Proof.
    intros s l b t z s' os E. unfold leecher_start in E. destruct (get l (s_leechers s)); [|discriminate E].
    destruct t as [t|]; injection E as <- <-; (split; [reflexivity|]; split; [reflexivity|]); intros k; unfold num; cbn [with_sizes with_leecher s_leechers]; rewrite get_set; destruct (k =? l); reflexivity.
  Qed.
  Lemma catchup_counts : forall w s l s' os, catchup_ledger w s l = Ok (s', os) ->
    s_state s' = s_state s /\ s_cur s' = s_cur s /\ forall k, num s' k = if k =? l then 0 else num s k.
  Proof.
    intros w s l s' os E. unfold catchup_ledger in E. destruct (get l (s_leechers s)); [|discriminate E]. destruct (get l (s_till s)).
    - destruct (calc_nodes_ledger_sizes w s l); [|discriminate E]. cbn [bind] in E. exact (start_counts _ _ _ _ _ _ _ E).
    - exact (start_counts _ _ _ _ _ _ _ E).
  Qed.
  Lemma counted_start : forall past s s' l, (forall k, num s k = last_num k past) -> awaited s' = Some l ->
    (forall k, num s' k = if k =? l then 0 else num s k) -> counted past s'.
  Proof. intros past s s' l C A N k. rewrite N. destruct (Nat.eqb_spec k l) as [->|]; [right; auto | left; apply C]. Qed.
  Lemma enter_counts : forall past w s x s' os, (forall k, num s k = last_num k past) -> enter_state w s x = Ok (s', os) -> counted past s'.
  Proof.
    intros past w s x s' os C E. destruct x; cbn [enter_state state_to_ledger] in E.
    - injection E as <- <-. intros k. left. exact (C k).
    - destruct (start_counts _ _ _ _ _ _ _ E) as (S' & _ & N). apply (counted_start past s s' POOL_LEDGER_ID C); [unfold awaited; rewrite S'; reflexivity | exact N].
    - destruct (catchup_counts _ _ _ _ _ E) as (S' & _ & N). apply (counted_start past s s' AUDIT_LEDGER_ID C); [unfold awaited; rewrite S'; reflexivity | exact N].
    - destruct (catchup_counts _ _ _ _ _ E) as (S' & _ & N). apply (counted_start past s s' POOL_LEDGER_ID C); [unfold awaited; rewrite S'; reflexivity | exact N].
    - destruct (catchup_counts _ _ _ _ _ E) as (S' & _ & N). apply (counted_start past s s' CONFIG_LEDGER_ID C); [unfold awaited; rewrite S'; reflexivity | exact N].
    - unfold sync_next_ledger in E. destruct (get_next_ledger w (with_state s SyncingOthers) (s_cur (with_state s SyncingOthers))) as [[l|]|]; [| |discriminate E]; cbn [bind] in E.
      + destruct (catchup_counts _ _ _ _ _ E) as (S' & C' & N). apply (counted_start past s s' l C); [unfold awaited; rewrite S', C'; reflexivity | exact N].
      + injection E as <- <-. intros k. left. exact (C k).
  Qed.
  Lemma step_counts : forall past w s e s' os, match e with EStart _ => False | _ => True end -> counted past s -> step root w s e = Ok (s', os) -> counted (past ++ [(e, w)]) s'.
  Proof.
    intros past w s e s' os NS C E. destruct e as [i|lid t z|lid n]; [destruct NS| |]; cbn [step] in E.
    - destruct (get lid (s_leechers s)) as [x|] eqn:G; [|discriminate E]. injection E as <- <-. intros k. rewrite last_num_snoc.
      assert (N : num (with_sizes (with_leecher s lid (mkLe syncing t (le_num x))) lid z) k = num s k).
      { unfold num. cbn [with_sizes with_leecher s_leechers]. rewrite get_set. destruct (Nat.eqb_spec k lid) as [->|]; [rewrite G|]; reflexivity. }
      rewrite N. exact (C k).
    - destruct (get lid (s_leechers s)) as [x|] eqn:G; [|discriminate E]. set (s1 := with_leecher s lid (mkLe synced None n)) in E.
      assert (N : forall k, num s1 k = if k =? lid then n else num s k).
      { intros k. unfold num, s1. cbn [with_leecher s_leechers]. rewrite get_set. destruct (k =? lid); reflexivity. }
      unfold on_complete in E. rewrite validate_awaited in E. change (awaited s1) with (awaited s) in E.
      destruct (awaited s) as [c|] eqn:AW.
      + destruct (Nat.eqb_spec lid c) as [<-|NE]; cbn [negb] in E.
        * assert (C1 : forall k, num s1 k = last_num k (past ++ [(EDone lid n, w)])).
          { intros k. rewrite N, last_num_snoc, (Nat.eqb_sym lid k). destruct (Nat.eqb_spec k lid) as [->|NK]; [reflexivity|].
            destruct (C k) as [X|[X _]]; [exact X | congruence]. }
          destruct (s_state s1) eqn:ST.
          -- injection E as <- <-. intros k. left. exact (C1 k).
          -- exact (enter_counts _ w s1 SyncingAudit s' os C1 E).
          -- exact (enter_counts _ w (mkSvc SyncingAudit (calc_catchup_till root w) (s_sizes s1) (s_cur s1) (s_leechers s1)) SyncingPool s' os C1 E).
          -- exact (enter_counts _ w s1 SyncingConfig s' os C1 E).
          -- exact (enter_counts _ w s1 SyncingOthers s' os C1 E).
          -- assert (ES : s1 = with_state s1 SyncingOthers) by (unfold with_state; rewrite <- ST; destruct s1; reflexivity).
             rewrite ES in E. exact (enter_counts _ w s1 SyncingOthers s' os C1 E).
        * injection E as <- <-. intros k. rewrite N, last_num_snoc, (Nat.eqb_sym lid k). change (awaited s1) with (awaited s). rewrite AW.
          destruct (k =? lid); [left; reflexivity|]. specialize (C k). rewrite AW in C. exact C.
      + cbn [negb] in E. injection E as <- <-. intros k. rewrite N, last_num_snoc, (Nat.eqb_sym lid k). change (awaited s1) with (awaited s). rewrite AW.
        destruct (k =? lid); [left; reflexivity|]. specialize (C k). rewrite AW in C. exact C.
  Qed.
  Lemma run_counts : forall es past s s' os, no_start es -> counted past s -> run root s es = Ok (s', os) -> counted (past ++ es) s'.
  Proof.
    induction es as [|[e w] es IH]; intros past s s' os NS C R; [injection R as <- <-; rewrite app_nil_r; exact C|].
    cbn [run] in R. destruct (step root w s e) as [[s1 o1]|] eqn:E1; [|discriminate R]. cbn [bind fst snd] in R.
    destruct (run root s1 es) as [[s2 o2]|] eqn:E2; [|discriminate R]. cbn [bind fst snd] in R. injection R as <- <-.
    change ((e, w) :: es) with ([(e, w)] ++ es). rewrite app_assoc. apply (IH (past ++ [(e, w)]) s1 s2 o2); [exact (no_start_tl _ _ NS) | | exact E2].
    apply (step_counts past w s e s1 o1); [|exact C | exact E1]. destruct e; [exact (NS is_initial w (or_introl eq_refl)) | exact Logic.I | exact Logic.I].
  Qed.
  Lemma sum_counts : forall (d : dict leecher) f, NoDup (map fst d) -> (forall l x, get l d = Some x -> le_num x = f l) ->
    fold_right (fun x n => le_num (snd x) + n) 0 d = fold_right (fun l n => f l + n) 0 (map fst d).
  Proof.
    induction d as [|[k x] d IH]; intros f ND H; [reflexivity|]. inversion ND as [|? ? N1 N2]; subst. cbn [fold_right map fst snd].
    rewrite (H k x) by (cbn [get]; rewrite Nat.eqb_refl; reflexivity). f_equal. apply IH; [exact N2|].
    intros l y G. apply H. cbn [get]. destruct (Nat.eqb_spec l k) as [->|]; [|exact G]. exfalso. apply N1. apply in_keys. congruence.
  Qed.
  Theorem C55_counts : forall reg s i w es s' os fr, registered_ok reg -> at_rest s reg -> no_start es -> frozen_is fr es ->
    run root s ((EStart i, w) :: es) = Ok (s', os) -> In Complete (acts os) ->
    num_txns_caught_up s' = fold_right (fun l n => last_num l es + n) 0 reg.
  Proof.
    intros reg s i w es s' os fr RK AR NS FR R I. destruct (C55_order_partial root reg s i w es s' os fr RK AR NS FR R) as [_ AR'].
    destruct (AR' I) as (S' & _ & K'). cbn [run step] in R. unfold start in R. set (s1 := mkSvc _ _ _ _ _) in R.
    destruct (enter_state w s1 (if i then PreSyncingPool else SyncingAudit)) as [[s2 o2]|] eqn:E; [|discriminate R]. cbn [bind fst snd] in R.
    destruct (run root s2 es) as [[s3 o3]|] eqn:E2; [|discriminate R]. cbn [bind fst snd] in R. injection R as <- <-.
    assert (C0 : forall k, num s1 k = last_num k []).
    { intros k. unfold num, s1, last_num. cbn [s_leechers fold_left]. clear. induction (s_leechers s) as [|[j x] d IH]; [reflexivity|]. cbn [map get fst]. destruct (k =? j); [reflexivity | exact IH]. }
    assert (C := run_counts es [] s2 s3 o3 NS (enter_counts [] w s1 _ s2 o2 C0 E) E2). cbn [app] in C.
    unfold num_txns_caught_up. rewrite (sum_counts (s_leechers s3) (fun l => last_num l es)); [rewrite K'; reflexivity | rewrite K'; exact (proj1 RK) |].
    intros l x G. destruct (C l) as [X|[X _]]; [unfold num in X; rewrite G in X; exact X|]. unfold awaited in X. rewrite S' in X. discriminate X.
  Qed.
End Counts.

(** a service just created is at rest *)
Lemma set_new_keys : forall lids (d : dict leecher), NoDup lids -> (forall l, In l lids -> get l d = None) ->
  map fst (fold_left (fun d l => set l (mkLe not_synced None 0) d) lids d) = map fst d ++ lids.
Proof.
  induction lids as [|l lids IH]; intros d ND H; cbn [fold_left]; [rewrite app_nil_r; reflexivity|]. inversion ND as [|? ? N1 N2]; subst.
  rewrite IH; [|exact N2|].
  - assert (E : map fst (set l (mkLe not_synced None 0) d) = map fst d ++ [l]).
    { specialize (H l (or_introl eq_refl)). clear - H. induction d as [|[k v] d IHd]; [reflexivity|]. cbn [get set map fst app] in *.
      destruct (Nat.eqb_spec l k); [discriminate H|]. cbn [map fst]. rewrite IHd by exact H. reflexivity. }
    rewrite E, <- app_assoc. reflexivity.
  - intros k I. rewrite get_set. destruct (Nat.eqb_spec k l) as [->|]; [contradiction | exact (H k (or_intror I))].
Qed.
Theorem C55_new_at_rest : forall lids, NoDup lids -> at_rest (new_service lids) lids.
Proof. intros lids ND. split; [reflexivity|]. split; [reflexivity|]. unfold new_service. cbn [s_leechers]. rewrite set_new_keys; [reflexivity | exact ND | reflexivity]. Qed.

(** ** Examples *)
Definition reg1 : list nat := [3; 0; 2; 1; 6].
Definition L1 : list (env * batch) := [(env1 1, bat 1 [10; 11] [10; 11; 12]); (env1 2, bat 2 [10; 11] [10; 11; 12])].
Definition x1 : env * batch := (env1 3, bat 3 [10; 11] [10; 11; 12]).
Fixpoint build (A : list adata) (L : list (env * batch)) : list adata :=
  match L with [] => A | x :: r => match createL rt A x with Ok a => build (A ++ [a]) r | Err _ => A end end.
Definition A1 : list adata := Eval vm_compute in build [] (L1 ++ [x1]).
(** the node has the pool ledger, one of three transactions of ledger 1, and a ledger 6 nobody else has *)
Definition w1 : world := mkWorld A1 [(0, [[7%N]; [8%N]]); (1, [[5%N]]); (6, [])] [].
Lemma built1 : Built rt (L1 ++ [x1]) A1.
Proof.
  change (L1 ++ [x1]) with ((([] ++ [(env1 1, bat 1 [10; 11] [10; 11; 12])]) ++ [(env1 2, bat 2 [10; 11] [10; 11; 12])]) ++ [x1]).
  assert (E : exists a b c, A1 = (([] ++ [a]) ++ [b]) ++ [c]) by (do 3 eexists; reflexivity). unfold A1.
  match goal with |- Built _ _ [?a; ?b; ?c] => change (Built rt ((([] ++ [(env1 1, bat 1 [10; 11] [10; 11; 12])]) ++ [(env1 2, bat 2 [10; 11] [10; 11; 12])]) ++ [x1]) ((([] ++ [a]) ++ [b]) ++ [c])) end.
  apply B_snoc; [apply B_snoc; [apply B_snoc; [constructor|]|]|]; vm_compute; reflexivity.
Qed.
Example ex_C55_targets : Built rt (L1 ++ [x1]) A1 /\ Forall proper (L1 ++ [x1]) /\ grows (L1 ++ [x1]) /\ stays_frozen (L1 ++ [x1]) /\ w_audit w1 = A1 /\
  (forall lid own v, get lid (w_own w1) = Some own -> live lid x1 v ->
     length own = length (lv_txns v) \/ (lv_txns v <> [] /\ forall y, In y L1 -> exists u, live lid y u)) /\
  get 0 (calc_catchup_till rt w1) = Some (mkTill 2 2 (Some (rt [[7%N]; [8%N]]))) /\
  get 1 (calc_catchup_till rt w1) = Some (mkTill 1 3 (Some (rt [[5%N]; [5%N]; [5%N]]))) /\
  get 6 (calc_catchup_till rt w1) = None.
Proof.
  assert (AT : forall i x, nth_error (L1 ++ [x1]) i = Some x -> exists b, x = (env1 (S i), b)).
  { intros i x E. do 3 (destruct i as [|i]; [injection E as <-; eexists; reflexivity|]). destruct i; discriminate. }
  split; [exact built1|]. split; [|split; [|split; [|split; [reflexivity|split; [|vm_compute; auto]]]]].
  - repeat (constructor; [apply proper1|]). constructor.
  - intros i j x y lid v w Lij Ex Ey. destruct (AT _ _ Ex) as (bx & ->). destruct (AT _ _ Ey) as (by_ & ->). intros Lx Ly.
    apply live1 in Lx as [[-> ->]|[-> ->]]; apply live1 in Ly as [[C ->]|[C ->]]; try discriminate C;
      [exists []; rewrite app_nil_r; reflexivity|]. eexists. apply repeat_grow. lia.
  - intros i j x y lid Lij Ex Ey Fx. destruct (AT _ _ Ex) as (b & ->). exfalso. apply Fx. reflexivity.
  - intros lid own v G Lv. apply live1 in Lv as [[-> ->]|[-> ->]].
    + left. injection G as <-. reflexivity.
    + right. split; [discriminate|]. intros y [<-|[<-|[]]]; eexists; (split; [reflexivity | split; [reflexivity | discriminate]]).
Qed.

(** A whole catch-up: the pool ledger first, the audit ledger (five nodes say they have 3 batches, one says 2),
    then pool and config, ledger 1 to size 3, ledger 6 by a search of its own; reports that are not
    awaited come in between. *)
Definition w0 : world := mkWorld [] [(0, [[7%N]; [8%N]]); (1, [[5%N]]); (6, [])] [].
Definition es1 : list (event * world) :=
  [(EProof 0 None (Some [(1, 2); (2, 2)]), w0); (EDone 0 0, w0);
   (EDone 1 0, w0); (EProof 3 (Some (mkTill 0 3 (Some [9%N]))) (Some [(1, 3); (2, 2)]), w0); (EDone 3 3, w1);
   (EDone 0 0, w1); (EProof 2 None None, w1); (EDone 2 0, w1); (EDone 1 2, w1); (EDone 2 0, w1); (EProof 6 None None, w1); (EDone 6 0, w1)].
Example ex_C55_run :
  registered_ok reg1 /\ at_rest (new_service reg1) reg1 /\ no_start es1 /\ frozen_is [] es1 /\ reasonable reg1 es1 /\
  match run rt (new_service reg1) ((EStart true, w0) :: es1) with
  | Ok (s, os) =>
    acts os = [Search 0 false; Search 3 true; Fetch 0 None; Search 2 true; Fetch 1 (Some (mkTill 1 3 (Some (rt [[5%N]; [5%N]; [5%N]])))); Search 6 true; Complete] /\
    In (OCatchupRep 1 (Some (mkTill 1 3 (Some (rt [[5%N]; [5%N]; [5%N]])))) (Some [(1, 3); (2, 2)])) os /\ num_txns_caught_up s = 5 /\ s_state s = Idle
  | Err _ => False
  end.
Proof.
  assert (ND : NoDup reg1) by (unfold reg1; repeat (constructor; [cbn; intuition discriminate|]); constructor).
  split; [split; [exact ND | cbn; auto 10]|]. split; [exact (C55_new_at_rest reg1 ND)|].
  split; [intros i w I; cbn in I; intuition discriminate|].
  split; [intros lid n w I _ _; cbn in I; repeat (destruct I as [I|I]; [try discriminate I; injection I as <- <- <-; reflexivity|]); destruct I|].
  split; [|vm_compute; auto 20]. split; [|split; [|split; [|split]]].
  - intros lid t z w I. cbn in I. repeat (destruct I as [I|I]; [try discriminate I; injection I as <- <- <- <-; cbn; auto 10|]). destruct I.
  - intros lid n w I. cbn in I. repeat (destruct I as [I|I]; [try discriminate I; injection I as <- <- <-; cbn; auto 10|]). destruct I.
  - intros e1 n w e2 E. unfold es1 in E.
    repeat (destruct e1 as [|y e1]; cbn [app] in E; [try discriminate E; do 3 eexists; cbn; auto 20 | injection E as <- E]).
    destruct e1; discriminate E.
  - intros t z w I n k J. cbn in I. repeat (destruct I as [I|I]; [try discriminate I; injection I as <- <- <-; cbn in J; repeat (destruct J as [J|J]; [injection J as <- <-; lia|]); destruct J|]). destruct I.
  - intros e1 l n w e2 l' n' w' E I NE. unfold es1 in E.
    repeat (destruct e1 as [|y e1]; cbn [app] in E;
      [try discriminate E; injection E as <- <- <- <-; cbn in I; try (exfalso; apply NE; reflexivity);
       repeat (destruct I as [I|I]; [try discriminate I; injection I as <- <- <-; discriminate|]); destruct I
      | injection E as <- E]).
    destruct e1; discriminate E.
Qed.

(** the sizes of a node that has two of the three batches *)
Example ex_C55_sizes : exists z, let s := mkSvc SyncingConfig [] [(3, Some [(1, 3); (2, 2); (4, 7)])] None [] in
  get 1 (s_sizes s) = None /\ calc_nodes_ledger_sizes w1 s 1 = Ok z /\ z = [(1, 3); (2, 2); (4, 3)].
Proof. exists [(1, 3); (2, 2); (4, 3)]. vm_compute. auto. Qed.

(** ** What does not hold *)

(** A node stopped and started again in the same process while ledger 1 is being caught up
    (node.py:906-951 start, 2610-2618): the second catch-up goes on with the ledger after ledger 1,
    and is reported complete although ledger 1 was never complete. *)
Definition es2 : list (event * world) :=
  [(EProof 3 None None, w0); (EDone 3 0, w0); (EDone 0 0, w0); (EDone 2 0, w0)].
Theorem C55_order_refuted : exists reg es s os, registered_ok reg /\ In 1 (others reg []) /\ frozen_is [] es /\
  run rt (new_service reg) es = Ok (s, os) /\ In Complete (acts os) /\ s_state s = Idle /\ forall n w, ~ In (EDone 1 n, w) es.
Proof.
  exists reg1, ([(EStart true, w0); (EProof 0 None None, w0); (EDone 0 0, w0)] ++ es2 ++ [(EStart true, w0); (EProof 0 None None, w0); (EDone 0 0, w0)] ++ es2 ++ [(EDone 6 0, w0)]).
  do 2 eexists. split; [split; [unfold reg1; repeat (constructor; [cbn; intuition discriminate|]); constructor | cbn; auto 10]|].
  split; [cbn; auto|]. split; [intros lid n w I _ _; cbn in I; repeat (destruct I as [I|I]; [try discriminate I; injection I as <- <- <-; reflexivity|]); destruct I|].
  split; [vm_compute; reflexivity|]. split; [cbn; auto 20|]. split; [reflexivity|].
  intros n w I. cbn in I. repeat (destruct I as [I|I]; [discriminate I|]). destruct I.
Qed.

(** A ledger of the right size with a wrong content is not noticed: the root that the audit ledger
    records for it is dropped, and nothing is fetched. *)
Definition w2 : world := mkWorld A1 [(0, [[7%N]; [8%N]]); (1, [[4%N]; [4%N]; [4%N]])] [].
Theorem C55_divergence_refuted : exists before x A w lid own v t s os, Built rt (before ++ [x]) A /\ Forall proper (before ++ [x]) /\ grows (before ++ [x]) /\
  w_audit w = A /\ get lid (w_own w) = Some own /\ live lid x v /\ own <> lv_txns v /\
  get lid (calc_catchup_till rt w) = Some t /\ t_hash t = Some (rt (lv_txns v)) /\ t_hash t <> Some (rt own) /\
  run rt (new_service [3; 0; 2; 1]) [(EStart false, w); (EProof 3 None None, w); (EDone 3 0, w); (EDone 0 0, w); (EDone 2 0, w)] = Ok (s, os) /\
  last os ONodeComplete = OCatchupRep lid None (Some []).
Proof.
  destruct ex_C55_targets as (B & P & G & _).
  exists L1, x1, A1, w2, 1, [[4%N]; [4%N]; [4%N]], (mkLV (repeat [5%N] 3) 1 (Some [2%N])), (mkTill 3 3 (Some (rt (repeat [5%N] 3)))). do 2 eexists.
  split; [exact B|]. split; [exact P|]. split; [exact G|]. split; [reflexivity|]. split; [reflexivity|].
  split; [split; [reflexivity | split; [reflexivity | discriminate]]|]. split; [discriminate|]. split; [vm_compute; reflexivity|].
  split; [reflexivity|]. split; [discriminate|]. split; [vm_compute; reflexivity | reflexivity].
Qed.

(** A ledger added later has a size but no root in the audit ledger until it changes (C41). A node
    with another size of it has no targets for any ledger. *)
Definition L3 : list (env * batch) := [(env1 1, bat 1 [10] [10])].
Definition x3 : env * batch := (env2, bat 2 [10] [10]).
Definition A3 : list adata := Eval vm_compute in build [] (L3 ++ [x3]).
Definition w3 : world := mkWorld A3 [(0, [[7%N]; [8%N]]); (1, [[5%N]]); (4, [])] [].
Theorem C55_targets_refuted : exists before x A w v, Built rt (before ++ [x]) A /\ w_audit w = A /\ get 1 (w_own w) = Some [[5%N]] /\
  live 1 x v /\ lv_txns v = [[5%N]; [5%N]] /\ (forall y, In y before -> exists u, live 1 y u) /\ calc_catchup_till rt w = [].
Proof.
  exists L3, x3, A3, w3, (mkLV [[5%N]; [5%N]] 1 (Some [2%N])). split.
  - change (L3 ++ [x3]) with (([] ++ [(env1 1, bat 1 [10] [10])]) ++ [x3]). unfold A3.
    match goal with |- Built _ _ [?a; ?b] => change (Built rt (([] ++ [(env1 1, bat 1 [10] [10])]) ++ [x3]) (([] ++ [a]) ++ [b])) end.
    apply B_snoc; [apply B_snoc; [constructor|]|]; vm_compute; reflexivity.
  - split; [reflexivity|]. split; [reflexivity|]. split; [split; [reflexivity | split; [reflexivity | discriminate]]|]. split; [reflexivity|].
    split; [|vm_compute; reflexivity]. intros y [<-|[]]. eexists. split; [reflexivity | split; [reflexivity | discriminate]].
Qed.

Print Assumptions C55_order_partial.
Print Assumptions C55_complete_partial.
Print Assumptions C55_targets_partial.
Print Assumptions C55_sizes.
Print Assumptions C55_no_exception.
Print Assumptions C55_counts.
Print Assumptions C55_new_at_rest.
Print Assumptions C55_order_refuted.
Print Assumptions C55_divergence_refuted.
Print Assumptions C55_targets_refuted.
