(** C18, C19, C20: ordering within a view, for every sequence of messages. *)
From Coq Require Import List Arith Bool Lia.
From Verif Require Import Quorum_Model Quorum_Props Validator_Model NewView_Model NewView_Props
  Tpc_Model Tpc_Proofs Tpc_Proofs2.
Import ListNotations.

(** ** Vocabulary *)

(** the batches a replica ordered, in order *)
Fixpoint ordered (outs : list output) : list pre_prepare :=
  match outs with
  | [] => []
  | OOrdered pp :: outs' => pp :: ordered outs'
  | _ :: outs' => ordered outs'
  end.

(** everything a replica sent or ordered when it handled the events [evs], starting in [st] *)
Definition outputs (cfg : config) (st : replica) (evs : list event) : list output := snd (run cfg st evs).

(** A PrePrepare came from the primary: sent by it in this view and all checks passed; or it
    is a batch of an older view; or this replica is the primary itself and sent it. *)
Definition from_primary (cfg : config) (st : replica) (evs : list event) (pp : pre_prepare) : Prop :=
  (exists ck, In (EPrePrepare pp (primary cfg) ck) evs /\ ck = Checks true true true true true true) \/
  (exists pp0 ck, In (EOldPrePrepare pp0 ck) evs /\
     pp = PrePrepare (r_view st) (pp_seq pp0) (pp_time pp0) (pp_dig pp0) (pp_orig_view pp0)
            (pp_state_root pp0) (pp_txn_root pp0) (pp_audit_root pp0) /\
     ck = Checks true true true true true true) \/
  In (OPrePrepare pp) (outputs cfg st evs).

(** [x] sent a Prepare for exactly this batch: same place, digest and roots *)
Definition prepared_by (cfg : config) (st : replica) (evs : list event) (pp : pre_prepare) (x : node) : Prop :=
  x <> primary cfg /\
  ((x = me cfg /\ In (OPrepare (prepare_of pp)) (outputs cfg st evs)) \/
   exists p, In (EPrepare p x) evs /\ p_view p = pp_view pp /\ p_seq p = pp_seq pp /\ p_dig p = pp_dig pp /\
     p_state_root p = pp_state_root pp /\ p_txn_root p = pp_txn_root pp /\ p_audit_root p = pp_audit_root pp).

(** [x] sent a Commit for the place of this batch; its signature, if any, is over the result
    of the batch *)
Definition committed_by (cfg : config) (st : replica) (evs : list event) (pp : pre_prepare) (x : node) : Prop :=
  (x = me cfg /\ In (OCommit (Commit (pp_view pp) (pp_seq pp) (sign cfg false pp)) pp) (outputs cfg st evs)) \/
  exists c, In (ECommit c x) evs /\ c_view c = pp_view pp /\ c_seq c = pp_seq pp /\
    (c_sig c = None \/ c_sig c = Some (pp_state_root pp, pp_txn_root pp, pp_time pp)).

(** at least [n] different nodes satisfy [P] *)
Definition at_least (n : nat) (P : node -> Prop) : Prop :=
  exists names, NoDup names /\ n <= length names /\ forall x, In x names -> P x.

(** The events of one replica: nobody gets a PrePrepare from itself, and batches of older
    views come only if the NewView lists some, at most one for each place. *)
Definition well_formed (cfg : config) (st : replica) (evs : list event) : Prop :=
  (forall pp x ck, In (EPrePrepare pp x ck) evs -> x <> me cfg) /\
  (forall pp ck, In (EOldPrePrepare pp ck) evs -> 1 <= r_prev_cert st) /\
  (forall pp ck pp' ck', In (EOldPrePrepare pp ck) evs -> In (EOldPrePrepare pp' ck') evs ->
     pp_seq pp = pp_seq pp' -> pp = pp').

Lemma well_formed_wf cfg st evs : well_formed cfg st evs -> wf cfg evs (r_prev_cert st).
Proof. intros (A & B & C). constructor; assumption. Qed.

(** ** C18 *)
Lemma ordered_app a b : ordered (a ++ b) = ordered a ++ ordered b.
Proof. induction a as [|[]]; simpl; congruence. Qed.

Lemma ordered_nil o : (forall pp, ~ In (OOrdered pp) o) -> ordered o = [].
Proof.
  induction o as [|e o IH]; intros N; [reflexivity|].
  assert (N' : forall pp, ~ In (OOrdered pp) o) by (intros pp X; apply (N pp); right; exact X).
  destruct e; simpl; auto. exfalso. apply (N pp). left. reflexivity.
Qed.
Lemma ordered_in pp o : In pp (ordered o) <-> In (OOrdered pp) o.
Proof.
  induction o as [|e o IH]; simpl; [tauto|]. destruct e; simpl; rewrite ?IH.
  - intuition discriminate.
  - intuition discriminate.
  - intuition discriminate.
  - split; intros [X|X]; auto; left; congruence.
Qed.

(** The batches a replica orders in a view are those of the places following the last one it
    had ordered before, one by one, whatever messages arrive in whatever order. *)
Theorem C18_ordered_in_order : forall cfg st evs, view_start st ->
  map pp_key (ordered (outputs cfg st evs)) =
  map (fun s => (r_view st, s)) (seq (S (snd (r_last_ordered st))) (length (ordered (outputs cfg st evs)))).
Proof.
  intros cfg st evs Hs. set (v := r_view st). set (l0 := snd (r_last_ordered st)).
  assert (X : inv (fst (run cfg st evs)) /\ r_view (fst (run cfg st evs)) = v /\
    snd (r_last_ordered (fst (run cfg st evs))) = l0 + length (ordered (outputs cfg st evs)) /\
    map pp_key (ordered (outputs cfg st evs)) = map (fun s => (v, s)) (seq (S l0) (length (ordered (outputs cfg st evs))))).
  2: apply X.
  apply (micros_ind_outs cfg evs (fun outs s => inv s /\ r_view s = v /\
    snd (r_last_ordered s) = l0 + length (ordered outs) /\
    map pp_key (ordered outs) = map (fun s => (v, s)) (seq (S l0) (length (ordered outs))))) with (st := st) (outs := []).
  - intros outs s s' o (I & V & L & M) Mi. destruct (micro_inv cfg evs s s' o I Mi) as (I' & V' & A & B).
    rewrite ordered_app. refine (conj I' (conj _ _)); [congruence|].
    destruct (ordered o) as [|pp r] eqn:E.
    + rewrite B, app_nil_r; [auto|]. intros pp X. apply ordered_in in X. rewrite E in X. exact X.
    + assert (In (OOrdered pp) o) as X by (apply ordered_in; rewrite E; left; reflexivity).
      destruct (A pp X) as (-> & A1 & A2 & A3). simpl in E. injection E as <-.
      rewrite A3, app_length, map_app, M. simpl. rewrite Nat.add_1_r, seq_S, map_app. simpl.
      split; [lia|]. f_equal. unfold pp_key. f_equal. f_equal; [congruence|lia].
  - apply start_micros. exact Hs.
  - split; [apply start_inv; exact Hs|]. simpl. split; [reflexivity|]. split; [unfold l0; lia|reflexivity].
Qed.

(** so no place is ordered twice *)
Theorem C18_ordered_once : forall cfg st evs pp pp', view_start st ->
  In (OOrdered pp) (outputs cfg st evs) -> In (OOrdered pp') (outputs cfg st evs) ->
  pp_seq pp = pp_seq pp' -> pp = pp'.
Proof.
  intros cfg st evs pp pp' Hs X Y E. apply ordered_in in X, Y.
  pose proof (C18_ordered_in_order cfg st evs Hs) as M. revert X Y M.
  generalize (ordered (outputs cfg st evs)). generalize (S (snd (r_last_ordered st))).
  intros n l. revert n. induction l as [|p l IH]; [contradiction|].
  intros n X Y M. simpl in M. injection M as M1 M2 M.
  assert (L : forall r, In r l -> n < pp_seq r).
  { intros r R. apply (in_map pp_key) in R. rewrite M in R. apply in_map_iff in R as (s & R1 & R2).
    apply in_seq in R2. unfold pp_key in R1. injection R1 as _ <-. lia. }
  destruct X as [->|X], Y as [->|Y]; auto.
  - apply L in Y. lia.
  - apply L in X. lia.
  - eapply IH; eauto.
Qed.

(** ** C19 *)
Lemma matches_spec p pp : p_key p = pp_key pp -> prepare_matches p pp = true ->
  p_view p = pp_view pp /\ p_seq p = pp_seq pp /\ p_dig p = pp_dig pp /\
  p_state_root p = pp_state_root pp /\ p_txn_root p = pp_txn_root pp /\ p_audit_root p = pp_audit_root pp.
Proof.
  unfold p_key, pp_key, prepare_matches. intros E. injection E as E1 E2.
  destruct (Nat.eqb_spec (p_dig p) (pp_dig pp)) as [A|A]; [|discriminate].
  destruct (Nat.eqb_spec (p_state_root p) (pp_state_root pp)) as [B|B]; [|discriminate].
  destruct (Nat.eqb_spec (p_txn_root p) (pp_txn_root pp)) as [C|C]; [|discriminate].
  destruct (Nat.eqb_spec (p_audit_root p) (pp_audit_root pp)) as [D|D]; [|discriminate].
  auto 8.
Qed.

Lemma committed_spec cfg st evs x pp : committed cfg evs (outputs cfg st evs) x pp -> committed_by cfg st evs pp x.
Proof.
  intros [C|(c & C1 & C2 & C3)]; [left; exact C|right]. exists c. unfold c_key, pp_key in C2. injection C2 as E1 E2.
  refine (conj C1 (conj E1 (conj E2 C3))).
Qed.
Lemma vouched_spec cfg st evs x pp : x <> primary cfg -> vouched cfg evs (outputs cfg st evs) x pp ->
  prepared_by cfg st evs pp x.
Proof.
  intros N [C|(p & C1 & C2 & C3)]; (split; [exact N|]); [left; exact C|right].
  exists p. split; [exact C1|]. apply matches_spec; assumption.
Qed.

(** A batch is ordered only if the primary proposed it and n-f different nodes committed. *)
Theorem C19_ordered_has_commits_partial : forall cfg st evs pp, view_start st -> well_formed cfg st evs ->
  In (OOrdered pp) (outputs cfg st evs) ->
  from_primary cfg st evs pp /\ at_least (commit (q cfg)) (committed_by cfg st evs pp).
Proof.
  intros cfg st evs pp Hs W X.
  destruct (run_origin cfg evs st Hs (well_formed_wf _ _ _ W)) as (_ & _ & Hh & _).
  destruct (h_ord _ _ _ _ _ _ Hh pp X) as (P & names & D & L & F). split; [exact P|].
  exists names. refine (conj D (conj L _)). intros x Y. apply committed_spec, F, Y.
Qed.

(** A Commit for a batch above the NewView's batches is sent only if the primary proposed it
    and n-f-1 different nodes, none of them the primary, prepared exactly this batch. *)
Theorem C19_commit_has_prepares_partial : forall cfg st evs c pp, view_start st -> well_formed cfg st evs ->
  In (OCommit c pp) (outputs cfg st evs) -> r_prev_cert st < pp_seq pp ->
  c_view c = pp_view pp /\ c_seq c = pp_seq pp /\
  from_primary cfg st evs pp /\ at_least (prepare (q cfg)) (prepared_by cfg st evs pp).
Proof.
  intros cfg st evs c pp Hs W X Y.
  destruct (run_origin cfg evs st Hs (well_formed_wf _ _ _ W)) as (_ & _ & Hh & _).
  destruct (h_comm _ _ _ _ _ _ Hh c pp X) as (E & _). unfold c_key, pp_key in E. injection E as E1 E2.
  destruct (h_cert _ _ _ _ _ _ Hh c pp X Y) as (P & names & D & L & F).
  refine (conj E1 (conj E2 (conj P _))).
  exists names. refine (conj D (conj L _)). intros x Z. destruct (F x Z). apply vouched_spec; assumption.
Qed.

(** One Prepare and one Commit for each place; and if a replica orders a batch, any Commit it
    sends for its place is for that batch. *)
Theorem C19_one_vote : forall cfg st evs, view_start st -> well_formed cfg st evs ->
  (forall p p', In (OPrepare p) (outputs cfg st evs) -> In (OPrepare p') (outputs cfg st evs) ->
     p_view p = p_view p' -> p_seq p = p_seq p' -> p = p') /\
  (forall c pp c' pp', In (OCommit c pp) (outputs cfg st evs) -> In (OCommit c' pp') (outputs cfg st evs) ->
     c_view c = c_view c' -> c_seq c = c_seq c' -> c = c' /\ pp = pp') /\
  (forall pp c pp', In (OOrdered pp) (outputs cfg st evs) -> In (OCommit c pp') (outputs cfg st evs) ->
     pp_view pp = pp_view pp' -> pp_seq pp = pp_seq pp' -> r_prev_cert st < pp_seq pp -> pp = pp').
Proof.
  intros cfg st evs Hs W.
  destruct (run_origin cfg evs st Hs (well_formed_wf _ _ _ W)) as (_ & _ & Hh & Kk).
  refine (conj _ (conj _ _)).
  - intros p p' X Y E1 E2. apply (h_prep1 _ _ _ _ _ _ Hh p p' X Y). unfold p_key. congruence.
  - intros c pp c' pp' X Y E1 E2. apply (h_comm1 _ _ _ _ _ _ Hh c pp c' pp' X Y). unfold c_key. congruence.
  - intros pp c pp' X Y E1 E2 Cc. apply (k_same _ _ _ Kk pp c pp' X Y); auto. unfold pp_key. congruence.
Qed.

(** ** C20: a pool *)

(** [n] nodes with at most [f] faulty ones, in view [v] after a NewView that listed batches
    up to [cert]; node [x] starts in state [sts x] and handles the events [evs x]. *)
Record pool := Pool {
  nodes : list node; faulty : list node; leader : node; view : nat; cert : nat;
  cfgs : node -> config; sts : node -> replica; evs : node -> list event }.

Definition honest (P : pool) (x : node) : Prop := In x (nodes P) /\ ~ In x (faulty P).
Definition outs (P : pool) (x : node) : list output := outputs (cfgs P x) (sts P x) (evs P x).

Record pool_ok (P : pool) : Prop := {
  po_nodes : NoDup (nodes P) /\ 1 <= length (nodes P) /\ In (leader P) (nodes P);
  po_faulty : length (faulty P) <= getMaxFailures (length (nodes P));
  po_start : forall x, honest P x ->
    me (cfgs P x) = x /\ primary (cfgs P x) = leader P /\ q (cfgs P x) = Quorums (length (nodes P)) /\
    view_start (sts P x) /\ r_view (sts P x) = view P /\ r_prev_cert (sts P x) = cert P /\
    well_formed (cfgs P x) (sts P x) (evs P x) /\
    forall pp ck, In (EOldPrePrepare pp ck) (evs P x) -> pp_seq pp <= cert P;
  (** only nodes of the pool are heard *)
  po_senders : forall x y, honest P x ->
    ((exists p, In (EPrepare p y) (evs P x)) \/ (exists c, In (ECommit c y) (evs P x))) -> In y (nodes P);
  (** what comes from a correct node was sent by it.  A Prepare or Commit may also be the
      answer to a message request: then the correct node passes on a message for the same
      place that it counted together with its own (models.py:24-28, message_handlers.py:186-206),
      with the same digest and roots as its own Prepare. *)
  po_pp : forall x y pp ck, honest P x -> honest P y -> In (EPrePrepare pp y ck) (evs P x) ->
    cert P < pp_seq pp -> In (OPrePrepare pp) (outs P y);
  po_prepare : forall x y p, honest P x -> honest P y -> In (EPrepare p y) (evs P x) -> cert P < p_seq p ->
    exists p', In (OPrepare p') (outs P y) /\ p_view p' = p_view p /\ p_seq p' = p_seq p /\
      p_dig p' = p_dig p /\ p_state_root p' = p_state_root p /\ p_txn_root p' = p_txn_root p /\
      p_audit_root p' = p_audit_root p;
  po_commit : forall x y c, honest P x -> honest P y -> In (ECommit c y) (evs P x) ->
    exists c' pp, In (OCommit c' pp) (outs P y) /\ c_view c' = c_view c /\ c_seq c' = c_seq c /\
      (c' = c \/ exists z, In (ECommit c z) (evs P y)) }.

(** the same batch with the same result *)
Definition same_content (a b : pre_prepare) : Prop :=
  pp_dig a = pp_dig b /\ pp_state_root a = pp_state_root b /\ pp_txn_root a = pp_txn_root b /\
  pp_audit_root a = pp_audit_root b.

Section Agreement.
  Variable P : pool.
  Hypothesis ok : pool_ok P.

  Lemma origin_of x : honest P x ->
    H (cfgs P x) (evs P x) (view P) (cert P) (outs P x) (fst (run (cfgs P x) (sts P x) (evs P x))) /\
    Kp (cert P) (outs P x) (fst (run (cfgs P x) (sts P x) (evs P x))).
  Proof.
    intros Hx. destruct (po_start P ok x Hx) as (_ & _ & _ & S1 & V & C & W & _).
    destruct (run_origin (cfgs P x) (evs P x) (sts P x) S1 (well_formed_wf _ _ _ W)) as (_ & _ & A & B).
    rewrite V, C in A. rewrite C in B. split; assumption.
  Qed.

  Lemma from_leader x pp : honest P x -> honest P (leader P) -> cert P < pp_seq pp ->
    proposed (cfgs P x) (evs P x) (view P) (outs P x) pp -> In (OPrePrepare pp) (outs P (leader P)).
  Proof.
    intros Hx Hl Cc [(ck & A & _)|[(pp0 & ck & A & -> & _)|A]].
    - destruct (po_start P ok x Hx) as (_ & Ep & _). rewrite Ep in A. exact (po_pp P ok x (leader P) pp ck Hx Hl A Cc).
    - destruct (po_start P ok x Hx) as (_ & _ & _ & _ & _ & _ & _ & O). apply O in A. simpl in Cc. lia.
    - destruct (origin_of x Hx) as [Hh _]. destruct (h_sent _ _ _ _ _ _ Hh pp A) as (E & _).
      destruct (po_start P ok x Hx) as (Em & Ep & _). assert (x = leader P) as <- by congruence. exact A.
  Qed.

  (** Two correct nodes never send Commits for different batches of the same place (above the
      batches of the NewView). *)
  Theorem C20_commits_agree : forall x1 x2 c1 c2 pp1 pp2, honest P x1 -> honest P x2 ->
    In (OCommit c1 pp1) (outs P x1) -> In (OCommit c2 pp2) (outs P x2) ->
    pp_seq pp1 = pp_seq pp2 -> cert P < pp_seq pp1 -> same_content pp1 pp2.
  Proof.
    intros x1 x2 c1 c2 pp1 pp2 H1 H2 O1 O2 E Cc.
    assert (Cc2 : cert P < pp_seq pp2) by lia.
    destruct (origin_of x1 H1) as [A1 _]. destruct (origin_of x2 H2) as [A2 _].
    destruct (h_cert _ _ _ _ _ _ A1 c1 pp1 O1 Cc) as (P1 & n1 & D1 & L1 & F1).
    destruct (h_cert _ _ _ _ _ _ A2 c2 pp2 O2 Cc2) as (P2 & n2 & D2 & L2 & F2).
    destruct (h_comm _ _ _ _ _ _ A1 c1 pp1 O1) as (K1 & V1 & _).
    destruct (h_comm _ _ _ _ _ _ A2 c2 pp2 O2) as (K2 & V2 & _).
    assert (Vw : pp_view pp1 = view P /\ pp_view pp2 = view P).
    { unfold c_key, pp_key in K1, K2. injection K1 as X1 _. injection K2 as X2 _. split; congruence. }
    destruct (po_nodes P ok) as (Dn & N1 & Ln).
    destruct (po_start P ok x1 H1) as (M1 & Q1 & Qq1 & _). destruct (po_start P ok x2 H2) as (M2 & Q2 & Qq2 & _).
    assert (In_nodes : forall x cf pp names, honest P x -> me (cfgs P x) = x ->
      (forall y, In y names -> y <> primary (cfgs P x) /\ vouched (cfgs P x) (evs P x) (outs P x) y pp) ->
      cf = primary (cfgs P x) -> cf = leader P -> NoDup names -> members (nodes P) (cf :: names)).
    { intros x cf pp names Hx Mx Fx Ec El Dx. split.
      - constructor; [|exact Dx]. intros Y. destruct (Fx _ Y). congruence.
      - intros y [<-|Y]; [congruence|]. destruct (Fx y Y) as [_ [[-> _]|(p & Z & _)]].
        + rewrite Mx. apply Hx.
        + eapply (po_senders P ok); eauto. }
    destruct (C17_prepare_certificates_intersect Nat.eq_dec (nodes P) (faulty P) Dn N1 (po_faulty P ok)
      (prepare (Quorums (length (nodes P)))) (or_introl eq_refl) (leader P) (leader P) n1 n2) as (z & Z1 & Z2 & Z3).
    - exact (In_nodes x1 (leader P) pp1 n1 H1 M1 F1 (eq_sym Q1) eq_refl D1).
    - exact (In_nodes x2 (leader P) pp2 n2 H2 M2 F2 (eq_sym Q2) eq_refl D2).
    - apply Nat.leb_le. rewrite <- Qq1. exact L1.
    - apply Nat.leb_le. rewrite <- Qq2. exact L2.
    - assert (Zn : In z (nodes P)).
      { assert (M : members (nodes P) (leader P :: n1)) by (exact (In_nodes x1 (leader P) pp1 n1 H1 M1 F1 (eq_sym Q1) eq_refl D1)). apply M, Z1. }
      assert (Hz : honest P z) by (split; assumption).
      destruct (origin_of z Hz) as [Az _].
      destruct (Nat.eq_dec z (leader P)) as [->|Nz].
      + pose proof (from_leader x1 pp1 H1 Hz Cc P1) as B1. pose proof (from_leader x2 pp2 H2 Hz Cc2 P2) as B2.
        assert (pp1 = pp2) as ->.
        { apply (h_sent1 _ _ _ _ _ _ Az pp1 pp2 B1 B2). unfold pp_key. destruct Vw. congruence. }
        repeat split.
      + destruct Z1 as [Z1|Z1]; [congruence|]. destruct Z2 as [Z2|Z2]; [congruence|].
        assert (Vote : forall x pp, honest P x -> pp_view pp = view P -> cert P < pp_seq pp ->
          vouched (cfgs P x) (evs P x) (outs P x) z pp -> exists p, In (OPrepare p) (outs P z) /\
            p_key p = pp_key pp /\ prepare_matches p pp = true).
        { intros x pp Hx Vp Cp [[-> B]|(p & B & B1 & B2)].
          - destruct (po_start P ok x Hx) as (Mx & _). rewrite Mx. exists (prepare_of pp). split; [exact B|].
            split; [reflexivity|]. apply matches_prepare_of.
          - destruct (matches_spec p pp B1 B2) as (W1 & W2 & W3 & W4 & W5 & W6).
            destruct (po_prepare P ok x z p Hx Hz B) as (p' & B' & U1 & U2 & U3 & U4 & U5 & U6); [lia|].
            exists p'. split; [exact B'|]. split; [unfold p_key, pp_key; congruence|].
            unfold prepare_matches. rewrite U3, U4, U5, U6, W3, W4, W5, W6, !Nat.eqb_refl. reflexivity. }
        destruct (Vote x1 pp1 H1 (proj1 Vw) Cc (proj2 (F1 z Z1))) as (p1 & B1 & E1 & T1).
        destruct (Vote x2 pp2 H2 (proj2 Vw) Cc2 (proj2 (F2 z Z2))) as (p2 & B2 & E2 & T2).
        assert (p1 = p2) as <-.
        { apply (h_prep1 _ _ _ _ _ _ Az p1 p2 B1 B2). rewrite E1, E2. unfold pp_key. destruct Vw. congruence. }
        apply (matches_spec p1 pp1 E1) in T1. apply (matches_spec p1 pp2 E2) in T2.
        unfold same_content. destruct T1 as (_ & _ & T1 & T2' & T3 & T4), T2 as (_ & _ & U1 & U2 & U3 & U4).
        repeat split; congruence.
  Qed.

  (** Agreement for nodes that take part in the last phase: if two correct nodes order
      batches for the same place and each also sent its own Commit for it, the batches are
      the same. *)
  Theorem C20_agreement_partial : forall x1 x2 pp1 pp2, honest P x1 -> honest P x2 ->
    In (OOrdered pp1) (outs P x1) -> In (OOrdered pp2) (outs P x2) ->
    pp_view pp1 = pp_view pp2 -> pp_seq pp1 = pp_seq pp2 -> cert P < pp_seq pp1 ->
    (exists c pp, In (OCommit c pp) (outs P x1) /\ c_view c = pp_view pp1 /\ c_seq c = pp_seq pp1) ->
    (exists c pp, In (OCommit c pp) (outs P x2) /\ c_view c = pp_view pp2 /\ c_seq c = pp_seq pp2) ->
    same_content pp1 pp2.
  Proof.
    intros x1 x2 pp1 pp2 H1 H2 O1 O2 Ev Es Cc (c1 & b1 & C1 & W1 & W2) (c2 & b2 & C2 & W3 & W4).
    destruct (origin_of x1 H1) as [A1 K1]. destruct (origin_of x2 H2) as [A2 K2].
    destruct (h_comm _ _ _ _ _ _ A1 c1 b1 C1) as (T1 & _). destruct (h_comm _ _ _ _ _ _ A2 c2 b2 C2) as (T2 & _).
    assert (pp1 = b1) as <-.
    { apply (k_same _ _ _ K1 pp1 c1 b1 O1 C1); auto. rewrite <- T1. unfold pp_key, c_key. congruence. }
    assert (pp2 = b2) as <-.
    { apply (k_same _ _ _ K2 pp2 c2 b2 O2 C2); [|lia]. rewrite <- T2. unfold pp_key, c_key. congruence. }
    eapply (C20_commits_agree x1 x2); eauto.
  Qed.

  (** Agreement on the result when the nodes sign it: if every correct node signs the roots
      and the time in its Commits and Commits of correct nodes are heard with the signature,
      batches ordered at the same place have the same roots and time.  This covers the
      batches of the NewView too. *)
  Theorem C20_signed_agreement_partial : forall x1 x2 pp1 pp2, honest P x1 -> honest P x2 ->
    (forall x pp, honest P x -> sign (cfgs P x) false pp = Some (pp_state_root pp, pp_txn_root pp, pp_time pp)) ->
    (forall x y c, honest P x -> honest P y -> In (ECommit c y) (evs P x) ->
       exists v pp, c_sig c = Some v /\ In (OCommit c pp) (outs P y)) ->
    In (OOrdered pp1) (outs P x1) -> In (OOrdered pp2) (outs P x2) ->
    pp_view pp1 = pp_view pp2 -> pp_seq pp1 = pp_seq pp2 ->
    pp_state_root pp1 = pp_state_root pp2 /\ pp_txn_root pp1 = pp_txn_root pp2 /\ pp_time pp1 = pp_time pp2.
  Proof.
    intros x1 x2 pp1 pp2 H1 H2 Sg Au O1 O2 Ev Es.
    destruct (origin_of x1 H1) as [A1 _]. destruct (origin_of x2 H2) as [A2 _].
    destruct (h_ord _ _ _ _ _ _ A1 pp1 O1) as (_ & n1 & D1 & L1 & F1).
    destruct (h_ord _ _ _ _ _ _ A2 pp2 O2) as (_ & n2 & D2 & L2 & F2).
    destruct (po_nodes P ok) as (Dn & N1 & Ln).
    destruct (po_start P ok x1 H1) as (M1 & _ & Qq1 & _). destruct (po_start P ok x2 H2) as (M2 & _ & Qq2 & _).
    assert (In_nodes : forall x pp names, honest P x -> me (cfgs P x) = x ->
      (forall y, In y names -> committed (cfgs P x) (evs P x) (outs P x) y pp) ->
      NoDup names -> members (nodes P) names).
    { intros x pp names Hx Mx Fx Dx. split; [exact Dx|].
      intros y Y. destruct (Fx y Y) as [[-> _]|(c & Z & _)].
      - rewrite Mx. apply Hx.
      - eapply (po_senders P ok); eauto. }
    destruct (C17_strong_quorums_intersect Nat.eq_dec (nodes P) (faulty P) Dn N1 (po_faulty P ok)
      (commit (Quorums (length (nodes P)))) (or_intror (or_introl eq_refl)) n1 n2) as (z & Z1 & Z2 & Z3).
    - exact (In_nodes x1 pp1 n1 H1 M1 F1 D1).
    - exact (In_nodes x2 pp2 n2 H2 M2 F2 D2).
    - apply Nat.leb_le. rewrite <- Qq1. exact L1.
    - apply Nat.leb_le. rewrite <- Qq2. exact L2.
    - assert (Hz : honest P z).
      { split; [|exact Z3]. apply (In_nodes x1 pp1 n1 H1 M1 F1 D1), Z1. }
      destruct (origin_of z Hz) as [Az _].
      assert (Vote : forall x pp, honest P x -> committed (cfgs P x) (evs P x) (outs P x) z pp ->
        exists c b, In (OCommit c b) (outs P z) /\ c_key c = pp_key pp /\ c_sig c = Some (signed_value pp)).
      { intros x pp Hx [[-> B]|(c & B & B1 & B2)].
        - destruct (po_start P ok x Hx) as (Mx & _). rewrite Mx. eexists. exists pp. split; [exact B|].
          split; [reflexivity|]. simpl. apply Sg. exact Hx.
        - destruct (Au x z c Hx Hz B) as (v & b & Es' & Ob). exists c, b. split; [exact Ob|]. split; [exact B1|].
          destruct B2 as [B2|B2]; congruence. }
      destruct (Vote x1 pp1 H1 (F1 z Z1)) as (c1 & b1 & B1 & E1 & T1).
      destruct (Vote x2 pp2 H2 (F2 z Z2)) as (c2 & b2 & B2 & E2 & T2).
      destruct (h_comm1 _ _ _ _ _ _ Az c1 b1 c2 b2 B1 B2) as [<- _].
      { rewrite E1, E2. unfold pp_key. congruence. }
      rewrite T1 in T2. unfold signed_value in T2. injection T2 as X1 X2 X3. auto.
  Qed.

  (** Full agreement under a correct primary. *)
  Theorem C20_correct_primary_partial : forall x1 x2 pp1 pp2, honest P (leader P) -> honest P x1 -> honest P x2 ->
    In (OOrdered pp1) (outs P x1) -> In (OOrdered pp2) (outs P x2) ->
    pp_view pp1 = pp_view pp2 -> pp_seq pp1 = pp_seq pp2 -> cert P < pp_seq pp1 -> pp1 = pp2.
  Proof.
    intros x1 x2 pp1 pp2 Hl H1 H2 O1 O2 Ev Es Cc.
    destruct (origin_of x1 H1) as [A1 _]. destruct (origin_of x2 H2) as [A2 _].
    destruct (origin_of _ Hl) as [Az _].
    destruct (h_ord _ _ _ _ _ _ A1 pp1 O1) as (P1 & _). destruct (h_ord _ _ _ _ _ _ A2 pp2 O2) as (P2 & _).
    apply (h_sent1 _ _ _ _ _ _ Az).
    - exact (from_leader x1 pp1 H1 Hl Cc P1).
    - apply (from_leader x2 pp2 H2 Hl); [lia|exact P2].
    - unfold pp_key. congruence.
  Qed.
End Agreement.

(** ** C42: a replica prepares only batches of the primary *)
Theorem C42_prepares_only_proposed_partial : forall cfg st evs p, view_start st -> well_formed cfg st evs ->
  In (OPrepare p) (outputs cfg st evs) -> r_prev_cert st < p_seq p ->
  exists pp, p = prepare_of pp /\ from_primary cfg st evs pp.
Proof.
  intros cfg st evs p Hs W X Cc. exact (run_prepares cfg evs st Hs (well_formed_wf _ _ _ W) p X Cc).
Qed.

(** A replica that sent a Commit reports the batch as prepared until a stable checkpoint
    covers it: what a ViewChange message is built from. *)
Theorem C42_committed_is_reported : forall cfg st evs c pp, view_start st ->
  In (OCommit c pp) (outputs cfg st evs) ->
  In (preprepare_to_batch_id pp) (r_prepared (fst (run cfg st evs))) \/ pp_seq pp <= r_low (fst (run cfg st evs)).
Proof. intros cfg st evs c pp Hs X. exact (l_prepared _ _ (run_listed cfg evs st Hs) c pp X). Qed.

(** ** Concrete runs *)
Definition start0 : replica :=
  {| r_view := 0; r_low := 0; r_high := 300; r_waiting := false; r_participating := true;
     r_last_ordered := (0, 0); r_prev_cert := 0; r_sent := []; r_pps := []; r_prepares := []; r_commits := [];
     r_prep_wait := []; r_comm_wait := []; r_stashed := []; r_ordered := []; r_last_pp := 0;
     r_preprepared := []; r_prepared := [] |}.
Lemma start0_ok : view_start start0.
Proof. constructor; simpl; try reflexivity; try (intros k l E; discriminate E); try (intros k []); lia. Qed.

Definition all_ok : checks := Checks true true true true true true.
Definition no_bls (x : node) : config := Config x 0 (Quorums 4) (fun _ _ => None) 300 (Some 4).
Definition with_bls (x : node) : config := Config x 0 (Quorums 4) (fun _ pp => Some (signed_value pp)) 300 (Some 4).
Definition batch1 : pre_prepare := PrePrepare 0 1 5 1 0 10 20 30.
Definition batch1' : pre_prepare := PrePrepare 0 1 5 2 0 11 21 31.
Definition batch2 : pre_prepare := PrePrepare 0 2 6 7 0 12 22 32.

(** A replica that gets the messages of the second batch before those of the first. *)
Definition mixed_events : list event :=
  let c1 := Commit 0 1 None in let c2 := Commit 0 2 None in
  [EPrepare (prepare_of batch2) 2; ECommit c2 0; EPrePrepare batch1 0 all_ok; EPrePrepare batch2 0 all_ok;
   EPrepare (prepare_of batch2) 3; EPrepare (prepare_of batch2) 3; ECommit c2 3; ECommit c2 2;
   EPrepare (prepare_of batch1) 2; ECommit c1 0; ECommit c1 3; ETick].
Example C18_ex : view_start start0 /\ well_formed (no_bls 1) start0 mixed_events /\
  ordered (outputs (no_bls 1) start0 mixed_events) = [batch1; batch2] /\
  In (OCommit (Commit 0 2 None) batch2) (outputs (no_bls 1) start0 mixed_events) /\
  In (OPrepare (prepare_of batch1)) (outputs (no_bls 1) start0 mixed_events).
Proof.
  refine (conj start0_ok (conj _ (conj eq_refl (conj _ _)))).
  - refine (conj _ (conj _ _)); unfold mixed_events; simpl.
    + intros pp x ck X. repeat (destruct X as [X|X]; [try discriminate X; injection X as <- <- <-; discriminate|]). destruct X.
    + intros pp ck X. repeat (destruct X as [X|X]; [discriminate X|]). destruct X.
    + intros pp ck pp' ck' X. repeat (destruct X as [X|X]; [discriminate X|]). destruct X.
  - vm_compute. tauto.
  - vm_compute. tauto.
Qed.

(** *** Pools of four nodes *)
Definition signed1 : commit_msg := Commit 0 1 (Some (10, 20, 5)).
Definition unsigned1 : commit_msg := Commit 0 1 None.

(** Node 3 is faulty and silent, the primary is correct, everybody signs. *)
Definition good_pool : pool := Pool [0; 1; 2; 3] [3] 0 0 0 with_bls (fun _ => start0)
  (fun x => match x with
   | 0 => [ESend 5 1 10 20 30; EPrepare (prepare_of batch1) 1; EPrepare (prepare_of batch1) 2;
           ECommit signed1 1; ECommit signed1 2]
   | 1 => [EPrePrepare batch1 0 all_ok; EPrepare (prepare_of batch1) 2; ECommit signed1 0; ECommit signed1 2]
   | 2 => [EPrePrepare batch1 0 all_ok; EPrepare (prepare_of batch1) 1; ECommit signed1 0; ECommit signed1 1]
   | _ => []
   end).

(** The primary is faulty: it sends one batch to 1 and 2 and another to 3.  Nobody signs. *)
Definition split_pool : pool := Pool [0; 1; 2; 3] [0] 0 0 0 no_bls (fun _ => start0)
  (fun x => match x with
   | 1 => [EPrePrepare batch1 0 all_ok; EPrepare (prepare_of batch1) 2; ECommit unsigned1 2; ECommit unsigned1 0]
   | 2 => [EPrePrepare batch1 0 all_ok; EPrepare (prepare_of batch1) 1; ECommit unsigned1 1; ECommit unsigned1 0]
   | 3 => [EPrePrepare batch1' 0 all_ok; ECommit unsigned1 1; ECommit unsigned1 2; ECommit unsigned1 0]
   | _ => []
   end).

(** The same with signatures.  The first Commit that 1 and 2 get is an unsigned one of the
    faulty primary; when 3 requests their Commits they pass that one on. *)
Definition split_signed_pool : pool := Pool [0; 1; 2; 3] [0] 0 0 0 with_bls (fun _ => start0)
  (fun x => match x with
   | 1 => [EPrePrepare batch1 0 all_ok; ECommit unsigned1 0; EPrepare (prepare_of batch1) 2; ECommit signed1 2]
   | 2 => [EPrePrepare batch1 0 all_ok; ECommit unsigned1 0; EPrepare (prepare_of batch1) 1; ECommit signed1 1]
   | 3 => [EPrePrepare batch1' 0 all_ok; ECommit unsigned1 1; ECommit unsigned1 2; ECommit unsigned1 0]
   | _ => []
   end).

Ltac each_in X := repeat (destruct X as [X|X]; [try discriminate X|]); try contradiction X.
Ltac each_node Hx := let N := fresh "N" in
  destruct Hx as [Hx N]; simpl in Hx; each_in Hx; subst; try (exfalso; apply N; left; reflexivity).
Ltac pick := first [left; reflexivity | right; pick].

Lemma four_nodes : NoDup [0; 1; 2; 3].
Proof. repeat (apply NoDup_cons; [simpl; lia|]). apply NoDup_nil. Qed.

Ltac start_tac := intros x Hx; each_node Hx;
  (refine (conj eq_refl (conj eq_refl (conj eq_refl (conj start0_ok (conj eq_refl (conj eq_refl (conj _ _)))))));
     [refine (conj _ (conj _ _)); simpl;
       [intros pp x ck X; each_in X; injection X as <- <- <-; discriminate
       |intros pp ck X; each_in X
       |intros pp ck pp' ck' X; each_in X]
     |simpl; intros pp ck X; each_in X]).
Ltac senders_tac := intros x y Hx; each_node Hx; intros [[p X]|[c X]]; simpl in X; each_in X; injection X; intros; subst; simpl; auto.
Ltac pp_tac := intros x y pp ck Hx Hy X Cc; each_node Hx; each_node Hy; simpl in X; each_in X; injection X; intros; subst; vm_compute; pick.
Ltac prepare_tac := intros x y p Hx Hy X Cc; each_node Hx; each_node Hy; simpl in X; each_in X; injection X; intros; subst;
    exists (prepare_of batch1); (refine (conj _ (conj eq_refl (conj eq_refl (conj eq_refl (conj eq_refl (conj eq_refl eq_refl)))))); vm_compute; pick).

Lemma good_pool_ok : pool_ok good_pool.
Proof.
  constructor.
  { exact (conj four_nodes (conj (le_S _ _ (le_S _ _ (le_S _ _ (le_n 1)))) (or_introl eq_refl))). }
  { vm_compute. lia. }
  { start_tac. }
  { senders_tac. }
  { pp_tac. }
  { prepare_tac. }
  intros x y c Hx Hy X; each_node Hx; each_node Hy; simpl in X; each_in X; injection X; intros; subst;
    exists signed1, batch1; (refine (conj _ (conj eq_refl (conj eq_refl (or_introl eq_refl)))); vm_compute; pick).
Qed.
Lemma split_pool_ok : pool_ok split_pool.
Proof.
  constructor.
  { exact (conj four_nodes (conj (le_S _ _ (le_S _ _ (le_S _ _ (le_n 1)))) (or_introl eq_refl))). }
  { vm_compute. lia. }
  { start_tac. }
  { senders_tac. }
  { pp_tac. }
  { prepare_tac. }
  intros x y c Hx Hy X; each_node Hx; each_node Hy; simpl in X; each_in X; injection X; intros; subst;
    exists unsigned1, batch1; (refine (conj _ (conj eq_refl (conj eq_refl (or_introl eq_refl)))); vm_compute; pick).
Qed.
Lemma split_signed_pool_ok : pool_ok split_signed_pool.
Proof.
  constructor.
  { exact (conj four_nodes (conj (le_S _ _ (le_S _ _ (le_S _ _ (le_n 1)))) (or_introl eq_refl))). }
  { vm_compute. lia. }
  { start_tac. }
  { senders_tac. }
  { pp_tac. }
  { prepare_tac. }
  intros x y c Hx Hy X; each_node Hx; each_node Hy; simpl in X; each_in X; injection X; intros; subst;
    exists signed1, batch1; (refine (conj _ (conj eq_refl (conj eq_refl _))); [vm_compute; pick|]);
    try (left; reflexivity); right; exists 0; simpl; auto.
Qed.

Example C20_ex : pool_ok good_pool /\ honest good_pool 0 /\ honest good_pool 1 /\ honest good_pool 2 /\
  (forall x, In x [0; 1; 2] -> In (OOrdered batch1) (outs good_pool x) /\
     In (OCommit signed1 batch1) (outs good_pool x)) /\
  (forall x pp, honest good_pool x -> sign (cfgs good_pool x) false pp = Some (pp_state_root pp, pp_txn_root pp, pp_time pp)) /\
  (forall x y c, honest good_pool x -> honest good_pool y -> In (ECommit c y) (evs good_pool x) ->
     exists v pp, c_sig c = Some v /\ In (OCommit c pp) (outs good_pool y)).
Proof.
  refine (conj good_pool_ok _).
  assert (Hh : forall x, x = 0 \/ x = 1 \/ x = 2 -> honest good_pool x).
  { intros x E. split; simpl; [|lia]. intuition. }
  refine (conj (Hh 0 _) (conj (Hh 1 _) (conj (Hh 2 _) (conj _ (conj _ _))))); auto.
  - intros x X. simpl in X. each_in X; subst; split; vm_compute; pick.
  - intros x y c Hx Hy X; each_node Hx; each_node Hy; simpl in X; each_in X; injection X; intros; subst;
    exists (10, 20, 5), batch1; (refine (conj eq_refl _); vm_compute; pick).
Qed.

(** Ordering does not require the replica's own Prepare certificate: node 3 orders a batch
    that nobody else prepared. *)
Theorem C19_prepare_certificate_refuted : exists cfg st evs pp, view_start st /\ well_formed cfg st evs /\
  In (OOrdered pp) (outputs cfg st evs) /\ ~ at_least (prepare (q cfg)) (prepared_by cfg st evs pp).
Proof.
  exists (no_bls 3), start0, (evs split_pool 3), batch1'.
  refine (conj start0_ok (conj _ (conj _ _))).
  - apply (po_start split_pool split_pool_ok 3). split; simpl; lia.
  - vm_compute. pick.
  - intros (names & D & L & F).
    assert (E : forall x, In x names -> x = 3).
    { intros x X. destruct (F x X) as [_ [[-> _]|(p & P1 & _)]]; [reflexivity|]. simpl in P1. each_in P1. }
    destruct names as [|a [|b names]]; simpl in L; try (vm_compute in L; lia).
    inversion D as [|? ? N _]; subst. apply N. left. rewrite (E a), (E b); simpl; auto.
Qed.

(** Without signatures two correct nodes can order different batches at one place: a Commit
    names no digest, so 3 counts the Commits of 1 and 2 for its own batch. *)
Theorem C20_agreement_refuted : exists P x1 x2 pp1 pp2, pool_ok P /\ honest P x1 /\ honest P x2 /\
  In (OOrdered pp1) (outs P x1) /\ In (OOrdered pp2) (outs P x2) /\
  pp_view pp1 = pp_view pp2 /\ pp_seq pp1 = pp_seq pp2 /\ cert P < pp_seq pp1 /\
  pp_dig pp1 <> pp_dig pp2 /\ pp_txn_root pp1 <> pp_txn_root pp2.
Proof.
  exists split_pool, 1, 3, batch1, batch1'. refine (conj split_pool_ok _).
  refine (conj _ (conj _ (conj _ (conj _ (conj eq_refl (conj eq_refl (conj _ (conj _ _)))))))).
  - split; simpl; lia.
  - split; simpl; lia.
  - vm_compute. pick.
  - vm_compute. pick.
  - simpl. lia.
  - discriminate.
  - discriminate.
Qed.

(** Nor do signatures of all correct nodes suffice, if Commits are obtained by message
    requests: the answer may be an unsigned Commit of another node. *)
Theorem C20_signed_agreement_refuted : exists P x1 x2 pp1 pp2, pool_ok P /\ honest P x1 /\ honest P x2 /\
  (forall x pp, honest P x -> sign (cfgs P x) false pp = Some (pp_state_root pp, pp_txn_root pp, pp_time pp)) /\
  In (OOrdered pp1) (outs P x1) /\ In (OOrdered pp2) (outs P x2) /\
  pp_view pp1 = pp_view pp2 /\ pp_seq pp1 = pp_seq pp2 /\ cert P < pp_seq pp1 /\
  pp_dig pp1 <> pp_dig pp2 /\ pp_txn_root pp1 <> pp_txn_root pp2.
Proof.
  exists split_signed_pool, 1, 3, batch1, batch1'. refine (conj split_signed_pool_ok _).
  refine (conj _ (conj _ (conj _ (conj _ (conj _ (conj eq_refl (conj eq_refl (conj _ (conj _ _))))))))).
  - split; simpl; lia.
  - split; simpl; lia.
  - reflexivity.
  - vm_compute. pick.
  - vm_compute. pick.
  - simpl. lia.
  - discriminate.
  - discriminate.
Qed.

(** In a view whose NewView listed batches that this replica has ordered already, it accepts
    a PrePrepare for such a place from anybody, with any content, and sends a Prepare for it. *)
Theorem C42_foreign_batch_refuted : exists cfg st evs p, view_start st /\ well_formed cfg st evs /\
  In (OPrepare p) (outputs cfg st evs) /\ ~ exists pp, p = prepare_of pp /\ from_primary cfg st evs pp.
Proof.
  set (st := {| r_view := 1; r_low := 0; r_high := 300; r_waiting := false; r_participating := true;
     r_last_ordered := (0, 1); r_prev_cert := 1; r_sent := []; r_pps := []; r_prepares := []; r_commits := [];
     r_prep_wait := []; r_comm_wait := []; r_stashed := []; r_ordered := [(0, 1)]; r_last_pp := 1;
     r_preprepared := []; r_prepared := [] |}).
  set (bad := PrePrepare 1 1 5 99 1 0 0 0).
  exists (Config 2 1 (Quorums 4) (fun _ _ => None) 300 (Some 4)), st,
    [EPrePrepare bad 3 (Checks false false false false false false)], (prepare_of bad).
  refine (conj _ (conj _ (conj _ _))).
  - constructor; simpl; try reflexivity; try (intros k l E; discriminate E); try lia.
    intros k [<-|[]]. simpl. lia.
  - refine (conj _ (conj _ _)); simpl.
    + intros pp x ck [X|[]]. injection X as <- <- <-. discriminate.
    + intros pp ck [X|[]]. discriminate X.
    + intros pp ck pp' ck' [X|[]]. discriminate X.
  - vm_compute. pick.
  - intros (pp & _ & [(ck & [X|[]] & _)|[(pp0 & ck & [X|[]] & _)|X]]).
    + simpl in X. discriminate X.
    + discriminate X.
    + vm_compute in X. each_in X.
Qed.

Print Assumptions C18_ordered_in_order.
Print Assumptions C18_ordered_once.
Print Assumptions C19_ordered_has_commits_partial.
Print Assumptions C19_commit_has_prepares_partial.
Print Assumptions C19_one_vote.
Print Assumptions C19_prepare_certificate_refuted.
Print Assumptions C20_commits_agree.
Print Assumptions C20_agreement_partial.
Print Assumptions C20_signed_agreement_partial.
Print Assumptions C20_correct_primary_partial.
Print Assumptions C20_agreement_refuted.
Print Assumptions C20_signed_agreement_refuted.
Print Assumptions C42_prepares_only_proposed_partial.
Print Assumptions C42_committed_is_reported.
Print Assumptions C42_foreign_batch_refuted.
