From Coq Require Import List Arith Bool Lia.
From Verif Require Import Exec_Model Exec_Spec.
Import ListNotations.

Lemma req_eqb_eq : forall a b, req_eqb a b = true <-> a = b.
Proof.
  intros [a1 a2] [b1 b2]; unfold req_eqb; cbn. rewrite andb_true_iff, !Nat.eqb_eq. split; [intros [-> ->]; reflexivity | intros E; injection E as -> ->; auto].
Qed.
Lemma txns_eqb_eq : forall a b, txns_eqb a b = true <-> a = b.
Proof.
  induction a as [|x a IH]; intros [|y b]; cbn; try (split; [discriminate | discriminate]); [tauto|].
  rewrite andb_true_iff, IH. unfold txn_eqb. rewrite andb_true_iff, req_eqb_eq, Nat.eqb_eq.
  destruct x as [r t], y as [r' t']; cbn. split; [intros [[-> ->] ->]; reflexivity | intros E; injection E as -> -> ->; auto].
Qed.
Lemma txns_eqb_refl : forall a, txns_eqb a a = true.
Proof. intros a. apply txns_eqb_eq. reflexivity. Qed.
Lemma app_tail_eq : forall {A} (a c b d : list A), a ++ b = c ++ d -> length b = length d -> a = c /\ b = d.
Proof.
  intros A a; induction a as [|x a IH]; intros [|y c] b d E L; cbn in E.
  - auto.
  - subst b. cbn in L. rewrite app_length in L. lia.
  - subst d. cbn in L. rewrite app_length in L. lia.
  - injection E as -> E. destruct (IH _ _ _ E L) as [-> ->]. auto.
Qed.
Lemma upd_same : forall f k v, upd f k v k = v.
Proof. intros. unfold upd. rewrite Nat.eqb_refl. reflexivity. Qed.
Lemma upd_other : forall f k v i, i <> k -> upd f k v i = f i.
Proof. intros. unfold upd. rewrite (proj2 (Nat.eqb_neq _ _) H). reflexivity. Qed.

Section P.
  Variable lid_of id_of : nat -> nat.
  Variable ok : (nat -> list txn) -> req -> nat -> bool.
  Notation apply_req := (apply_req lid_of).
  Notation process_req := (process_req lid_of ok).
  Notation apply_reqs := (apply_reqs lid_of ok).
  Notation consume := (consume lid_of ok).
  Notation create := (create lid_of ok).
  Notation process_pp := (process_pp lid_of ok).
  Notation commit := (commit id_of).
  Notation step := (step lid_of id_of ok).
  Notation run := (run lid_of id_of ok).
  Notation correct := (correct lid_of ok).
  Notation fit := (fit lid_of ok).
  Notation fits := (fits lid_of id_of ok).

  (** [grown n m k T]: [m] is [n] with [T] applied to ledger [k] *)
  Definition grown (n m : node) (k : nat) (T : list txn) : Prop :=
    n_l m k = mkL (l_com (n_l n k)) (l_unc (n_l n k) ++ T) (l_head (n_l n k) ++ T) (l_chead (n_l n k)) /\
    (forall i, i <> k -> n_l m i = n_l n i) /\ n_db m = n_db n /\ n_full m = n_full n /\ n_app m = n_app n.
  Lemma grown_nil : forall n k, grown n n k [].
  Proof. intros n k. unfold grown. rewrite !app_nil_r. destruct (n_l n k); cbn. auto. Qed.
  Lemma grown_trans : forall n m o k S T, grown n m k S -> grown m o k T -> grown n o k (S ++ T).
  Proof.
    intros n m o k S T (A1 & A2 & A3 & A4 & A5) (B1 & B2 & B3 & B4 & B5). unfold grown. rewrite B1, A1. cbn. rewrite !app_assoc.
    split; [reflexivity|]. split; [intros i NE; rewrite (B2 i NE); exact (A2 i NE)|]. rewrite B3, B4, B5. auto.
  Qed.
  Lemma grown_req : forall n r t, grown n (apply_req n r t) (lid_of (r_pay r)) [mkX r t].
  Proof.
    intros n r t. unfold grown, Exec_Model.apply_req; cbn. rewrite upd_same. split; [reflexivity|]. split; [|auto].
    intros i NE. exact (upd_other _ _ _ _ NE).
  Qed.

  Lemma process_applied : forall n r t m, process_req n r t = RApplied m -> m = apply_req n r t /\ is_known n r = false /\ is_pending lid_of n r = false /\ ok (heads n) r t = true.
  Proof.
    intros n r t m E. unfold Exec_Model.process_req in E. destruct (is_known n r); [discriminate|]. destruct (is_pending lid_of n r); [discriminate|].
    destruct (ok (heads n) r t); [|discriminate]. injection E as <-. auto.
  Qed.

  Lemma keep_skip : forall rs i j inv, j < i -> keep i rs (j :: inv) = keep i rs inv.
  Proof.
    induction rs as [|r rs IH]; intros i j inv L; cbn; [reflexivity|]. destruct (Nat.eqb_spec i j) as [X|_]; [lia|]. cbn.
    destruct (existsb (Nat.eqb i) inv); [apply IH; lia|]. f_equal. apply IH; lia.
  Qed.
  Lemma keep_here : forall r rs i inv, (forall j, In j inv -> i < j) -> keep i (r :: rs) inv = r :: keep (S i) rs inv.
  Proof.
    intros r rs i inv B. cbn. destruct (existsb (Nat.eqb i) inv) eqn:E; [|reflexivity].
    apply existsb_exists in E. destruct E as (j & J & X). apply Nat.eqb_eq in X. specialize (B j J). lia.
  Qed.
  Lemma keep_dropped : forall r rs i inv, keep i (r :: rs) (i :: inv) = keep (S i) rs inv.
  Proof. intros. cbn [keep existsb]. rewrite Nat.eqb_refl. cbn [orb]. apply keep_skip. lia. Qed.

  Definition all_of (k : nat) (rs : list req) : Prop := forall r, In r rs -> lid_of (r_pay r) = k.

  Lemma apply_reqs_grown : forall rs n i t m inv s k, all_of k rs -> apply_reqs n i rs t = (m, inv, s) ->
    grown n m k (stamped (keep i rs inv) t) /\ (forall j, In j inv -> i <= j) /\ length inv + length (keep i rs inv) = length rs.
  Proof.
    induction rs as [|r rs IH]; intros n i t m inv s k A E; cbn [Exec_Model.apply_reqs] in E.
    - injection E as <- <- <-. cbn. split; [apply grown_nil|]. split; [intros j []|reflexivity].
    - assert (A' : all_of k rs) by (intros x X; apply A; right; exact X).
      destruct (process_req n r t) as [n'| |] eqn:P.
      + destruct (process_applied _ _ _ _ P) as (-> & _). destruct (IH _ _ _ _ _ _ k A' E) as (G & B & L).
        assert (B' : forall j, In j inv -> i < j) by (intros j J; specialize (B j J); lia).
        rewrite (keep_here r rs i inv B'). split; [|split; [intros j J; specialize (B' j J); lia | cbn; lia]].
        change (stamped (r :: keep (S i) rs inv) t) with ([mkX r t] ++ stamped (keep (S i) rs inv) t).
        apply (grown_trans n (apply_req n r t)); [|exact G]. rewrite <- (A r (or_introl eq_refl)). apply grown_req.
      + destruct (apply_reqs n (S i) rs t) as [[m0 inv0] s0] eqn:E0. injection E as <- <- <-. destruct (IH _ _ _ _ _ _ k A' E0) as (G & B & L).
        rewrite keep_dropped. split; [exact G|]. split; [intros j [<-|J]; [lia | specialize (B j J); lia] | cbn; lia].
      + destruct (apply_reqs n (S i) rs t) as [[m0 inv0] s0] eqn:E0. injection E as <- <- <-. destruct (IH _ _ _ _ _ _ k A' E0) as (G & B & L).
        rewrite keep_dropped. split; [exact G|]. split; [intros j [<-|J]; [lia | specialize (B j J); lia] | cbn; lia].
  Qed.

  Lemma consume_grown : forall rs n i t m out inv k, all_of k rs -> consume n i rs t = (m, out, inv) ->
    grown n m k (stamped (keep i out inv) t) /\ (forall j, In j inv -> i <= j) /\ length inv + length (keep i out inv) = length out /\ incl out rs.
  Proof.
    induction rs as [|r rs IH]; intros n i t m out inv k A E; cbn [Exec_Model.consume] in E.
    - injection E as <- <- <-. cbn. split; [apply grown_nil|]. split; [intros j []|]. split; [reflexivity | intros j []].
    - assert (A' : all_of k rs) by (intros x X; apply A; right; exact X).
      destruct (process_req n r t) as [n'| |] eqn:P.
      + destruct (process_applied _ _ _ _ P) as (-> & _). destruct (consume (apply_req n r t) (S i) rs t) as [[m0 out0] inv0] eqn:E0.
        injection E as <- <- <-. destruct (IH _ _ _ _ _ _ k A' E0) as (G & B & L & C).
        assert (B' : forall j, In j inv0 -> i < j) by (intros j J; specialize (B j J); lia).
        rewrite (keep_here r out0 i inv0 B'). split; [|split; [intros j J; specialize (B' j J); lia | split; [cbn; lia|]]].
        * change (stamped (r :: keep (S i) out0 inv0) t) with ([mkX r t] ++ stamped (keep (S i) out0 inv0) t).
          apply (grown_trans n (apply_req n r t)); [|exact G]. rewrite <- (A r (or_introl eq_refl)). apply grown_req.
        * intros x [<-|X]; [left; reflexivity | right; exact (C x X)].
      + destruct (consume n (S i) rs t) as [[m0 out0] inv0] eqn:E0. injection E as <- <- <-. destruct (IH _ _ _ _ _ _ k A' E0) as (G & B & L & C).
        rewrite keep_dropped. split; [exact G|]. split; [intros j [<-|J]; [lia | specialize (B j J); lia]|]. split; [cbn; lia|].
        intros x [<-|X]; [left; reflexivity | right; exact (C x X)].
      + destruct (IH _ _ _ _ _ _ k A' E) as (G & B & L & C). split; [exact G|]. split; [exact B|]. split; [exact L|]. intros x X. right. exact (C x X).
  Qed.

  Lemma queue_all : forall k rs, all_of k (queue lid_of k rs).
  Proof. intros k rs r R. unfold queue in R. apply filter_In in R. destruct R as [_ R]. apply Nat.eqb_eq in R. exact R. Qed.

  (** what a correct primary's PrePrepare is like *)
  Definition body (p : pp) : list txn := stamped (valid_reqs p) (p_time p).
  Lemma create_spec : forall n k rs t m p, create n k rs t = (m, p) ->
    p_lid p = k /\ p_time p = t /\ p_whole p = true /\ all_of k (p_reqs p) /\ length (p_disc p) + length (valid_reqs p) = length (p_reqs p) /\
    p_troot p = (l_com (n_l n k) ++ l_unc (n_l n k)) ++ body p /\ p_sroot p = l_head (n_l n k) ++ body p /\
    exists g, grown n g k (body p) /\ m = track g (mkB p (l_head (n_l n k)) false).
  Proof.
    intros n k rs t m p E. unfold Exec_Model.create in E. destruct (consume n 0 (queue lid_of k rs) t) as [[g out] inv] eqn:C.
    injection E as <- <-. destruct (consume_grown _ _ _ _ _ _ _ k (queue_all k rs) C) as (G & B & L & I). cbn. unfold valid_reqs, body. cbn.
    pose proof G as (G1 & _). rewrite G1. cbn. split; [reflexivity|]. split; [reflexivity|]. split; [reflexivity|].
    split; [intros r R; apply (queue_all k rs), I, R|]. split; [exact L|]. split; [apply app_assoc|]. split; [reflexivity|].
    exists g. split; [exact G|reflexivity].
  Qed.
  Lemma correct_spec : forall p, correct p ->
    all_of (p_lid p) (p_reqs p) /\ length (p_disc p) + length (valid_reqs p) = length (p_reqs p) /\ p_whole p = true /\ exists X, p_troot p = X ++ body p.
  Proof.
    intros p (n0 & rs & E). destruct (create n0 (p_lid p) rs (p_time p)) as [m q] eqn:C. cbn in E. subst q.
    destruct (create_spec _ _ _ _ _ _ C) as (_ & _ & W & A & L & T & _). split; [exact A|]. split; [exact L|]. split; [exact W|]. eexists. exact T.
  Qed.

  (** ** The invariant *)
  Fixpoint chain (k : nat) (base : list txn) (bs : list abatch) (final : list txn) : Prop :=
    match bs with
    | [] => final = base
    | b :: bs' =>
      if p_lid (b_pp b) =? k then
        b_before b = base /\ p_troot (b_pp b) = base ++ body (b_pp b) /\ p_sroot (b_pp b) = base ++ body (b_pp b) /\
        length (p_disc (b_pp b)) + length (valid_reqs (b_pp b)) = length (p_reqs (b_pp b)) /\ chain k (base ++ body (b_pp b)) bs' final
      else chain k base bs' final
    end.
  Lemma chain_prefix : forall k bs base final, chain k base bs final -> exists s, final = base ++ s.
  Proof.
    induction bs as [|b bs IH]; intros base final C; cbn in C; [exists []; rewrite app_nil_r; exact C|].
    destruct (p_lid (b_pp b) =? k); [|exact (IH _ _ C)]. destruct C as (_ & _ & _ & _ & C). destruct (IH _ _ C) as (s & ->).
    exists (body (b_pp b) ++ s). rewrite app_assoc. reflexivity.
  Qed.
  Lemma chain_snoc : forall k bs base mid b final, chain k base bs mid ->
    (if p_lid (b_pp b) =? k then b_before b = mid /\ p_troot (b_pp b) = mid ++ body (b_pp b) /\ p_sroot (b_pp b) = mid ++ body (b_pp b) /\
        length (p_disc (b_pp b)) + length (valid_reqs (b_pp b)) = length (p_reqs (b_pp b)) /\ final = mid ++ body (b_pp b) else final = mid) ->
    chain k base (bs ++ [b]) final.
  Proof.
    induction bs as [|a bs IH]; intros base mid b final C B; cbn in C |- *.
    - subst mid. exact B.
    - destruct (p_lid (b_pp a) =? k); [|exact (IH _ _ _ _ C B)]. destruct C as (C1 & C2 & C3 & C4 & C).
      repeat (split; [assumption|]). exact (IH _ _ _ _ C B).
  Qed.
  Lemma chain_unsnoc : forall k bs base b final, chain k base (bs ++ [b]) final -> exists mid, chain k base bs mid /\
    (if p_lid (b_pp b) =? k then b_before b = mid /\ length (p_disc (b_pp b)) + length (valid_reqs (b_pp b)) = length (p_reqs (b_pp b)) /\ final = mid ++ body (b_pp b) else final = mid).
  Proof.
    induction bs as [|a bs IH]; intros base b final C; cbn in C |- *.
    - exists base. split; [reflexivity|]. destruct (p_lid (b_pp b) =? k); [|exact C]. destruct C as (C1 & C2 & C3 & C4 & C5). auto.
    - destruct (p_lid (b_pp a) =? k).
      + destruct C as (C1 & C2 & C3 & C4 & C5). destruct (IH _ _ _ C5) as (mid & M & X). exists mid. split; [|exact X]. repeat (split; [assumption|]). exact M.
      + exact (IH _ _ _ C).
  Qed.

  Definition prefixed (bs : list abatch) : Prop := exists o u, bs = o ++ u /\ (forall b, In b o -> b_ord b = true) /\ (forall b, In b u -> b_ord b = false).
  Definition sound (n : node) (bs : list abatch) : Prop := forall k, let l := n_l n k in
    l_chead l = l_com l /\ l_head l = l_com l ++ l_unc l /\ chain k (l_com l) bs (l_head l).
  Definition Inv (n : node) : Prop := sound n (n_app n) /\ prefixed (n_app n).

  Lemma sound_unc : forall n bs k, sound n bs -> l_unc (n_l n k) = skipn (length (l_com (n_l n k))) (l_head (n_l n k)).
  Proof. intros n bs k S. destruct (S k) as (_ & H & _). rewrite H, skipn_app, skipn_all, Nat.sub_diag. reflexivity. Qed.

  Lemma Inv_init : Inv init.
  Proof. split; [intros k; cbn; auto|]. exists [], []. split; [reflexivity|]. split; intros b []. Qed.

  (** appending an accepted batch *)
  Lemma Inv_track : forall n g p, Inv n -> grown n g (p_lid p) (body p) -> length (p_disc p) + length (valid_reqs p) = length (p_reqs p) ->
    p_troot p = (l_com (n_l n (p_lid p)) ++ l_unc (n_l n (p_lid p))) ++ body p -> p_sroot p = l_head (n_l n (p_lid p)) ++ body p ->
    Inv (track g (mkB p (l_head (n_l n (p_lid p))) false)).
  Proof.
    intros n g p [S (o & u & A & O & U)] (G1 & G2 & G3 & G4 & G5) L T R. split.
    - intros k. cbn. destruct (S k) as (S1 & S2 & S3). destruct (Nat.eq_dec k (p_lid p)) as [E|NE].
      + subst k. rewrite G1. cbn. split; [exact S1|]. split; [rewrite S2, app_assoc; reflexivity|]. rewrite G5.
        apply (chain_snoc _ _ _ _ _ _ S3). cbn. rewrite Nat.eqb_refl. split; [reflexivity|]. rewrite T, S2. split; [reflexivity|]. rewrite R, S2. auto.
      + rewrite (G2 k NE). split; [exact S1|]. split; [exact S2|]. rewrite G5. apply (chain_snoc _ _ _ _ _ _ S3). cbn.
        destruct (Nat.eqb_spec (p_lid p) k) as [E|_]; [congruence|reflexivity].
    - exists o, (u ++ [mkB p (l_head (n_l n (p_lid p))) false]). cbn. rewrite G5, A, app_assoc. split; [reflexivity|]. split; [exact O|].
      intros b B. apply in_app_or in B. destruct B as [B|[<-|[]]]; [exact (U b B)|reflexivity].
  Qed.

  Lemma revert_grown : forall n g k T c, grown n g k T -> c = length T -> exists m, revert g k (l_head (n_l n k)) c = Some m /\
    (forall i, n_l m i = n_l n i) /\ n_db m = n_db n /\ n_full m = n_full n /\ n_app m = n_app n.
  Proof.
    intros n g k T c (G1 & G2 & G3 & G4 & G5) ->. unfold revert. rewrite G1. cbn [l_com l_unc l_head l_chead]. rewrite app_length.
    destruct (Nat.ltb_spec (length (l_unc (n_l n k)) + length T) (length T)) as [X|_]; [lia|]. eexists. split; [reflexivity|]. cbn. split; [|auto].
    intros i. destruct (Nat.eq_dec i k) as [->|NE]; [|rewrite (upd_other _ _ _ _ NE); exact (G2 i NE)]. rewrite upd_same.
    replace (length (l_unc (n_l n k)) + length T - length T) with (length (l_unc (n_l n k))) by lia.
    rewrite firstn_app, Nat.sub_diag, firstn_all. cbn. rewrite app_nil_r. destruct (n_l n k); reflexivity.
  Qed.

  (** a PrePrepare all of whose requests belong to its ledger is either accepted or leaves no trace *)
  Lemma process_spec : forall n p, all_of (p_lid p) (p_reqs p) -> p_whole p = true -> exists m b, process_pp n p = Some (m, b) /\
    (b = false -> (forall i, n_l m i = n_l n i) /\ n_db m = n_db n /\ n_full m = n_full n /\ n_app m = n_app n) /\
    (b = true -> exists g T, grown n g (p_lid p) T /\ m = track g (mkB p (l_head (n_l n (p_lid p))) false) /\
       length (p_disc p) + length T = length (p_reqs p) /\ p_troot p = (l_com (n_l n (p_lid p)) ++ l_unc (n_l n (p_lid p))) ++ T /\ p_sroot p = l_head (n_l n (p_lid p)) ++ T).
  Proof.
    intros n p A W. unfold Exec_Model.process_pp. rewrite W. cbn [negb]. destruct (apply_reqs n 0 (p_reqs p) (p_time p)) as [[g inv] s] eqn:E.
    destruct (apply_reqs_grown _ _ _ _ _ _ _ _ A E) as (G & B & L). pose proof G as (G1 & _). rewrite G1. cbn [l_head l_com l_unc].
    destruct (negb s && (length inv =? length (p_disc p)) && txns_eqb (p_sroot p) (l_head (n_l n (p_lid p)) ++ stamped (keep 0 (p_reqs p) inv) (p_time p)) &&
      txns_eqb (p_troot p) (l_com (n_l n (p_lid p)) ++ l_unc (n_l n (p_lid p)) ++ stamped (keep 0 (p_reqs p) inv) (p_time p))) eqn:V.
    - rewrite !andb_true_iff in V. destruct V as [[[_ V1] V2] V3]. apply Nat.eqb_eq in V1. apply txns_eqb_eq in V2, V3.
      eexists _, true. split; [reflexivity|]. split; [discriminate|]. intros _. exists g, (stamped (keep 0 (p_reqs p) inv) (p_time p)).
      split; [exact G|]. split; [reflexivity|]. split; [unfold stamped; rewrite map_length; lia|]. split; [rewrite V3; apply app_assoc | exact V2].
    - assert (X : length (p_reqs p) - length inv = length (stamped (keep 0 (p_reqs p) inv) (p_time p))) by (unfold stamped; rewrite map_length; lia).
      destruct (revert_grown _ _ _ _ _ G X) as (m & M & R). rewrite M. exists m, false. split; [reflexivity|]. split; [intros _; exact R | discriminate].
  Qed.

  Lemma Inv_same : forall n m, (forall i, n_l m i = n_l n i) -> n_app m = n_app n -> Inv n -> Inv m.
  Proof. intros n m L A [S P]. split; [intros k; rewrite L, A; apply S | rewrite A; exact P]. Qed.

  Lemma mark_prefixed : forall bs, prefixed bs -> prefixed (mark bs).
  Proof.
    induction bs as [|b bs IH]; intros (o & u & E & O & U); [exists [], []; split; [reflexivity|]; split; intros x []|].
    cbn. destruct o as [|b' o]; cbn in E.
    - subst u. rewrite (U b (or_introl eq_refl)). exists [mkB (b_pp b) (b_before b) true], bs. split; [reflexivity|]. split; [intros x [<-|[]]; reflexivity|].
      intros x X. apply U. right. exact X.
    - injection E as <- E. rewrite (O b (or_introl eq_refl)). destruct IH as (o' & u' & E' & O' & U').
      { exists o, u. split; [exact E|]. split; [intros x X; apply O; right; exact X | exact U]. }
      exists (b :: o'), u'. split; [cbn; congruence|]. split; [|exact U']. intros x [<-|X]; [apply O; left; reflexivity | exact (O' x X)].
  Qed.
  Lemma mark_chain : forall k bs base final, chain k base bs final -> chain k base (mark bs) final.
  Proof.
    induction bs as [|b bs IH]; intros base final C; [exact C|]. cbn in C |- *. destruct (b_ord b) eqn:O; cbn.
    - destruct (p_lid (b_pp b) =? k); [|apply IH, C]. destruct C as (C1 & C2 & C3 & C4 & C5). repeat (split; [assumption|]). apply IH, C5.
    - exact C.
  Qed.

  Lemma stamped_length : forall rs t, length (stamped rs t) = length rs.
  Proof. intros. apply map_length. Qed.

  Lemma commit_spec : forall n p, l_com (n_l n (p_lid p)) ++ firstn (length (valid_reqs p)) (l_unc (n_l n (p_lid p))) = p_troot p ->
    exists m, commit n p = Some m /\
      n_l m (p_lid p) = mkL (p_troot p) (skipn (length (valid_reqs p)) (l_unc (n_l n (p_lid p)))) (l_head (n_l n (p_lid p))) (p_sroot p) /\
      (forall k, k <> p_lid p -> n_l m k = n_l n k) /\ n_app m = n_app n.
  Proof.
    intros n p T. unfold Exec_Model.commit. rewrite T, txns_eqb_refl.
    destruct (update_map id_of (n_db n) (n_full n) (p_lid p) (S (length (l_com (n_l n (p_lid p))))) (firstn (length (valid_reqs p)) (l_unc (n_l n (p_lid p))))) as [db full].
    eexists. split; [reflexivity|]. cbn. rewrite upd_same. split; [reflexivity|]. split; [|reflexivity]. intros k NE. exact (upd_other _ _ _ _ NE).
  Qed.

  Lemma exec_spec : forall n b bs, sound n (b :: bs) -> exists m, commit n (b_pp b) = Some m /\ n_app m = n_app n /\
    l_com (n_l m (p_lid (b_pp b))) = l_com (n_l n (p_lid (b_pp b))) ++ body (b_pp b) /\ p_troot (b_pp b) = l_com (n_l n (p_lid (b_pp b))) ++ body (b_pp b) /\
    p_sroot (b_pp b) = p_troot (b_pp b) /\
    (forall k, k <> p_lid (b_pp b) -> n_l m k = n_l n k) /\ sound m bs.
  Proof.
    intros n b bs S. destruct (S (p_lid (b_pp b))) as (S1 & S2 & C). cbn in C. rewrite Nat.eqb_refl in C. destruct C as (C1 & C2 & C3 & C4 & C5).
    destruct (chain_prefix _ _ _ _ C5) as (s & HS). assert (U : l_unc (n_l n (p_lid (b_pp b))) = body (b_pp b) ++ s).
    { rewrite S2, <- app_assoc in HS. apply app_inv_head in HS. exact HS. }
    assert (LB : length (valid_reqs (b_pp b)) = length (body (b_pp b))) by (unfold body; rewrite stamped_length; reflexivity).
    destruct (commit_spec n (b_pp b)) as (m & M & M1 & M2 & M3).
    { rewrite U, LB, firstn_app, Nat.sub_diag, firstn_all. cbn. rewrite app_nil_r. symmetry. exact C2. }
    exists m. split; [exact M|]. split; [exact M3|]. rewrite M1. cbn. split; [exact C2|]. split; [exact C2|]. split; [congruence|]. split; [exact M2|].
    intros k. cbn. destruct (Nat.eq_dec k (p_lid (b_pp b))) as [->|NE].
    - rewrite M1. cbn. split; [congruence|]. rewrite U, LB, skipn_app, Nat.sub_diag, skipn_all. cbn. split; [rewrite S2, U, C2, app_assoc; reflexivity|].
      rewrite C2. exact C5.
    - rewrite (M2 k NE). destruct (S k) as (T1 & T2 & T3). split; [exact T1|]. split; [exact T2|]. cbn in T3.
      destruct (Nat.eqb_spec (p_lid (b_pp b)) k) as [E|_]; [congruence|exact T3].
  Qed.

  Lemma revert_all_spec : forall u n o, sound n (o ++ u) -> exists m, revert_all n (rev u) = Some m /\ sound m o /\
    (forall k, l_com (n_l m k) = l_com (n_l n k)) /\ n_db m = n_db n /\ n_full m = n_full n.
  Proof.
    induction u as [|b u IH] using rev_ind; intros n o S.
    - cbn. rewrite app_nil_r in S. exists n. repeat (split; [auto; exact S|]). auto.
    - rewrite rev_app_distr. cbn. rewrite app_assoc in S. set (p := b_pp b) in *.
      destruct (S (p_lid p)) as (S1 & S2 & S3). destruct (chain_unsnoc _ _ _ _ _ S3) as (mid & M & X). fold p in X. rewrite Nat.eqb_refl in X. destruct X as (X1 & X2 & X3).
      destruct (chain_prefix _ _ _ _ M) as (s & HM). assert (U : l_unc (n_l n (p_lid p)) = s ++ body p).
      { rewrite S2, HM, <- app_assoc in X3. apply app_inv_head in X3. exact X3. }
      assert (LB : length (p_reqs p) - length (p_disc p) = length (body p)) by (unfold body; rewrite stamped_length; lia).
      unfold revert at 1. rewrite U, LB, app_length. destruct (Nat.ltb_spec (length s + length (body p)) (length (body p))) as [Y|_]; [lia|].
      replace (length s + length (body p) - length (body p)) with (length s) by lia. rewrite firstn_app, Nat.sub_diag, firstn_all. cbn [firstn]. rewrite app_nil_r.
      match goal with |- exists m, revert_all ?nn _ = _ /\ _ => set (n1 := nn) end.
      destruct (IH n1 o) as (m & R & R1 & R2 & R3 & R4).
      { intros k. cbn. unfold upd. destruct (Nat.eqb_spec k (p_lid p)) as [->|NE].
        - cbn. split; [exact S1|]. rewrite X1. split; [rewrite HM; reflexivity|exact M].
        - destruct (S k) as (T1 & T2 & T3). split; [exact T1|]. split; [exact T2|]. destruct (chain_unsnoc _ _ _ _ _ T3) as (mid' & M' & X'). fold p in X'.
          destruct (Nat.eqb_spec (p_lid p) k) as [E|_]; [congruence|]. rewrite X'. exact M'. }
      exists m. split; [exact R|]. split; [exact R1|]. split; [|rewrite R3, R4; auto].
      intros k. rewrite R2. cbn. unfold upd. destruct (Nat.eqb_spec k (p_lid p)) as [->|_]; reflexivity.
  Qed.

  Lemma filter_split : forall (o u : list abatch), (forall b, In b o -> b_ord b = true) -> (forall b, In b u -> b_ord b = false) ->
    filter b_ord (o ++ u) = o /\ filter (fun b => negb (b_ord b)) (o ++ u) = u.
  Proof.
    induction o as [|b o IH]; intros u O U; cbn.
    - induction u as [|b u IHu]; cbn; [auto|]. rewrite (U b (or_introl eq_refl)). cbn. destruct IHu as [A B]; [intros x X; apply U; right; exact X|]. rewrite A, B. auto.
    - rewrite (O b (or_introl eq_refl)). cbn. destruct (IH u) as [A B]; [intros x X; apply O; right; exact X | exact U|]. rewrite A, B. auto.
  Qed.

  Lemma stashed_grown : forall rs n t k, all_of k rs -> grown n (apply_stashed lid_of n rs t) k (stamped rs t).
  Proof.
    induction rs as [|r rs IH]; intros n t k A; cbn [apply_stashed]; [apply grown_nil|].
    change (stamped (r :: rs) t) with ([mkX r t] ++ stamped rs t). apply (grown_trans n (apply_req n r t)).
    - rewrite <- (A r (or_introl eq_refl)). apply grown_req.
    - apply IH. intros x X. apply A. right. exact X.
  Qed.
  Lemma keep_incl : forall rs i d, incl (keep i rs d) rs.
  Proof.
    induction rs as [|r rs IH]; intros i d x X; [destruct X|]. cbn in X. destruct (existsb (Nat.eqb i) d); [right; exact (IH _ _ x X)|].
    destruct X as [<-|X]; [left; reflexivity | right; exact (IH _ _ x X)].
  Qed.
  Lemma keep_length : forall rs i d, length (keep i rs d) <= length rs.
  Proof. induction rs as [|r rs IH]; intros i d; cbn; [lia|]. destruct (existsb (Nat.eqb i) d); cbn; specialize (IH (S i) d); lia. Qed.
  Lemma filter_len : forall {A} (f : A -> bool) l, length (filter f l) <= length l.
  Proof. intros A f l. induction l as [|x l IH]; cbn; [lia|]. destruct (f x); cbn; lia. Qed.

  Lemma step_Inv : forall n e, Inv n -> fit n e -> exists m, step n e = Some m /\ Inv m.
  Proof.
    intros n e I F. destruct e as [lid rs t|p| | |p| |lid x|]; cbn [Exec_Model.step].
    - destruct (create n lid rs t) as [m p] eqn:C. cbn. exists m. split; [reflexivity|].
      destruct (create_spec _ _ _ _ _ _ C) as (E1 & E2 & _ & A & L & T & R & g & G & ->). subst lid. exact (Inv_track n g p I G L T R).
    - cbn in F. destruct (correct_spec p F) as (A & L & W & X & T). destruct (process_spec n p A W) as (m & b & P & PF & PT). rewrite P. exists m. split; [reflexivity|].
      destruct b.
      + destruct (PT eq_refl) as (g & T' & G & -> & L' & R1 & R2).
        assert (TT : body p = T').
        { rewrite R1 in T. symmetry. apply (app_tail_eq _ _ _ _ T). unfold body. rewrite stamped_length. lia. }
        subst T'. exact (Inv_track n g p I G L R1 R2).
      + destruct (PF eq_refl) as (E1 & E2 & E3 & E4). exact (Inv_same n m E1 E4 I).
    - eexists. split; [reflexivity|]. destruct I as [S P]. split; [|exact (mark_prefixed _ P)]. intros k. cbn. destruct (S k) as (S1 & S2 & S3).
      split; [exact S1|]. split; [exact S2|]. exact (mark_chain _ _ _ _ S3).
    - destruct (n_app n) as [|b bs] eqn:A; [exists n; split; [reflexivity | exact I]|]. destruct (b_ord b) eqn:O; [|exists n; split; [reflexivity | exact I]].
      destruct I as [S (o & u & E & OO & UU)]. rewrite A in S. destruct (exec_spec n b bs S) as (m & M & M1 & _ & _ & _ & _ & SM). rewrite M. eexists. split; [reflexivity|].
      split; [exact SM|]. cbn. rewrite A in E. destruct o as [|b' o]; cbn in E.
      + subst u. rewrite (UU b (or_introl eq_refl)) in O. discriminate.
      + injection E as <- ->. exists o, u. split; [reflexivity|]. split; [intros y Y; apply OO; right; exact Y | exact UU].
    - destruct (n_app n) as [|b bs] eqn:A; [|exists n; split; [reflexivity | exact I]]. cbn in F. destruct (F A) as (C & T & R). clear F.
      destruct (correct_spec p C) as (AL & L & _). destruct I as [S P]. rewrite A in S.
      set (new := filter (fun r => negb (is_known n r)) (valid_reqs p)) in *.
      assert (AN : all_of (p_lid p) new). { intros r Q. unfold new in Q. apply filter_In in Q. apply AL. exact (keep_incl _ _ _ r (proj1 Q)). }
      pose proof (stashed_grown new n (p_time p) (p_lid p) AN) as G. set (g := apply_stashed lid_of n new (p_time p)) in *.
      destruct G as (G1 & G2 & G3 & G4 & G5). destruct (S (p_lid p)) as (S1 & S2 & S3). cbn in S3.
      assert (U : l_unc (n_l n (p_lid p)) = []) by (rewrite S2 in S3; apply (app_inv_head (l_com (n_l n (p_lid p)))); rewrite app_nil_r; exact S3).
      assert (FN : firstn (length (valid_reqs p)) (stamped new (p_time p)) = stamped new (p_time p)).
      { apply firstn_all2. rewrite stamped_length. unfold new. apply filter_len. }
      destruct (commit_spec g p) as (m & M & M1 & M2 & M3). { rewrite G1. cbn. rewrite U. cbn. rewrite FN. exact T. }
      exists m. split; [exact M|]. split; [|rewrite M3, G5, A; exists [], []; split; [reflexivity|]; split; intros y []]. rewrite M3, G5, A.
      intros k. cbn. destruct (Nat.eq_dec k (p_lid p)) as [->|NE].
      + rewrite M1, G1. cbn. rewrite U. cbn. rewrite (skipn_all2 (n := length (valid_reqs p))) by (rewrite stamped_length; unfold new; apply filter_len).
        rewrite S3, app_nil_r. unfold written in T. split; [exact R|]. split; exact T.
      + rewrite (M2 k NE), (G2 k NE). exact (S k).
    - destruct I as [S (o & u & E & O & U)]. rewrite E in S |- *. destruct (filter_split o u O U) as [-> ->].
      destruct (revert_all_spec u n o S) as (m & R & SM & _). rewrite R. eexists. split; [reflexivity|]. split; [exact SM|]. cbn.
      exists o, []. rewrite app_nil_r. split; [reflexivity|]. split; [exact O | intros y []].
    - cbn in F. rewrite F. destruct (update_map id_of (n_db n) (n_full n) lid (S (length (l_com (n_l n lid)))) [x]) as [db full].
      eexists. split; [reflexivity|]. destruct I as [S P]. rewrite F in S. split; [|exists [], []; split; [reflexivity|]; split; intros y []].
      intros k. cbn. unfold upd. destruct (S k) as (S1 & S2 & S3). destruct (Nat.eqb_spec k lid) as [->|NE]; [|exact (S k)]. cbn in S3 |- *.
      assert (U : l_unc (n_l n lid) = []) by (rewrite S2 in S3; apply (app_inv_head (l_com (n_l n lid))); rewrite app_nil_r; exact S3).
      rewrite U, S3, app_nil_r. auto.
    - eexists. split; [reflexivity|]. destruct I as [S P]. split; [|exists [], []; split; [reflexivity|]; split; intros y []].
      intros k. cbn. destruct (S k) as (S1 & _ & _). rewrite app_nil_r, S1. auto.
  Qed.

  Lemma run_Inv : forall es n, Inv n -> fits n es -> exists m, run n es = Some m /\ Inv m.
  Proof.
    induction es as [|e es IH]; intros n I F; cbn in F |- *; [exists n; auto|]. destruct F as [F1 F2]. destruct (step_Inv n e I F1) as (m & M & IM). rewrite M in F2 |- *.
    exact (IH m IM F2).
  Qed.
End P.
