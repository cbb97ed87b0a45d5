(** C37, C38 and C50: what a node asks for, adds and reports while it catches up a ledger. *)
From Coq Require Import List Arith NArith ZArith Bool Lia Permutation.
From Verif Require Import Base Dict Bits_Model Merkle_Spec Merkle_Model Merkle_Proofs Merkle_Props
  Ledger_Model Ledger_Spec Ledger_Proofs Ledger_Proofs2 Ledger_Props
  CatchupReq_Model CatchupReq_Props Catchup_Model Catchup_Spec Catchup_Proofs.
Import ListNotations.

Section Props.
  Variable H : bytes -> bytes.
  Variable B : Type.
  Variable ser_log : txn B -> bytes.
  Variable deser_log : bytes -> txn B.
  Variable ser_tree : txn B -> bytes.
  Hypothesis deser_ser : forall x, deser_log (ser_log x) = x.
  Hypothesis ser_nonempty : forall x, ser_log x <> [].
  Hypothesis digest_nonempty : forall x, H x <> [].
  Variable transform : txn B -> res (txn B).
  Variable batch lid : nat.
  (** the transactions the pool has agreed on, numbered from 1 *)
  Variable L : list (txn B).
  Hypothesis FL : FixedLength H.
  Hypothesis inj : forall x y, ser_tree x = ser_tree y -> x = y.
  Hypothesis numbered_L : forall i x, nth_error L i = Some x -> t_seq x = Some (S i).

  Notation st := (st B).
  Notation Shows := (Shows H B deser_log ser_tree).
  Notation PI := (PI H B ser_log ser_tree).
  Notation prefix := (prefix B).
  Notation good_till := (good_till H B ser_tree L).
  Notation honest := (honest H B ser_tree transform lid L).
  Notation good_ops := (good_ops H B ser_tree transform lid L).
  Notation run := (Catchup_Model.run H B ser_log ser_tree transform batch lid).
  Notation process_catchup_rep := (process_catchup_rep H B ser_log ser_tree transform lid).

  (** [p] is a ledger with a past, with nothing uncommitted, and it holds exactly [C]. *)
  Definition Holds (p : pledger B) (C : list (txn B)) : Prop :=
    exists os p0 q, all_allowed lempty os /\ new_ledger H B deser_log ser_tree = Ok p0 /\
      Ledger_Model.run H B ser_log deser_log ser_tree p0 os = Ok q /\ p = reset_uncommitted q /\
      Shows p (mkLst C [] false).

  Lemma shows_unique p C D : Shows p (mkLst C [] false) -> Shows p (mkLst D [] false) -> C = D.
  Proof.
    intros (A1 & _ & _ & _ & _ & A2 & _) (B1 & _ & _ & _ & _ & B2 & _). cbn [committed] in *.
    assert (E : length C = length D) by congruence.
    assert (EX : forall (u v : list (txn B)), (forall i, nth_error u i = nth_error v i) -> u = v).
    { induction u as [|x u IH]; intros v N; destruct v as [|y v]; [reflexivity|discriminate (N 0)|discriminate (N 0)|].
      pose proof (N 0) as N0. injection N0 as ->. f_equal. apply IH. intros i. exact (N (S i)). }
    apply EX. intros i. destruct (Nat.lt_ge_cases i (length C)) as [Li|Li].
    - destruct (A2 (S i) ltac:(lia)) as (x & X1 & X2). destruct (B2 (S i) ltac:(lia)) as (y & Y1 & Y2).
      replace (S i - 1) with i in * by lia. congruence.
    - rewrite (proj2 (nth_error_None C i)) by lia. symmetry. apply nth_error_None. lia.
  Qed.
  Lemma Holds_PI p C (s : st) : Holds p C -> s_led B s = p -> PI s C.
  Proof.
    intros (os & p0 & q & A & E0 & E1 & E2 & SH) E.
    destruct (new_ok H B ser_log deser_log ser_tree deser_ser) as (q0 & F0 & I0).
    assert (q0 = p0) by congruence. subst q0.
    destruct (run_sim H B ser_log deser_log ser_tree deser_ser os p0 _ I0 A) as (q' & s' & F & St & I).
    assert (q' = q) by congruence. subst q'. destruct I as (LI & EU & Q & D).
    assert (P : PInv H B ser_log ser_tree p (mkLst (committed s') [] false)).
    { subst p. apply (fresh_PInv H B ser_log ser_tree (p_base q)); [exact LI|].
      intros i x N. apply (Q i x). rewrite nth_error_app1; [exact N|]. apply nth_error_Some. congruence. }
    unfold Catchup_Proofs.PI. rewrite E.
    rewrite (shows_unique p C (committed s') SH (PInv_Shows H B ser_log deser_log ser_tree deser_ser ser_nonempty digest_nonempty _ _ P)).
    exact P.
  Qed.
  Lemma PI_shows (s : st) C : PI s C -> Shows (s_led B s) (mkLst C [] false).
  Proof. apply (PInv_Shows H B ser_log deser_log ser_tree deser_ser ser_nonempty digest_nonempty). Qed.

  (** ** C38: only agreed transactions *)

  (** Whatever starts, replies and timer calls there are, and whoever sends the replies:
      unless the digest function has a known collision, the ledger only grows along the
      agreed transactions and exactly those that were added are announced, in order.
      Missing for the full property: replies whose keys are unusual spellings of numbers
      ([C38_unusual_key_refuted]). *)
  Theorem C38_only_agreed_partial : forall p C0 os, Holds p C0 -> prefix C0 L ->
    Forall (op_ok H B ser_tree L) os ->
    (exists c, Collision H c) \/
    exists C, Shows (s_led B (run os (init B p))) (mkLst C [] false) /\ prefix C0 C /\ prefix C L /\
      Announced B transform C0 (s_log B (run os (init B p))) C.
  Proof.
    intros p C0 os HO P F.
    assert (SI : SInv H B ser_log ser_tree transform L C0 (init B p)).
    { exists C0. split; [apply (Holds_PI p C0 (init B p) HO); reflexivity|]. split; [exists []; rewrite app_nil_r; reflexivity|].
      split; [exact P|]. split; [intros frm reps r []|]. split; [exact I|]. split; [|discriminate].
      exists []. rewrite app_nil_r. split; [reflexivity|]. split; reflexivity. }
    destruct (run_inv H B ser_log ser_tree transform batch lid L FL inj numbered_L C0 os _ SI F) as [X|X]; [left; exact X|].
    right. destruct X as (C & P1 & P2 & P3 & _ & _ & A & _). exists C. split; [apply PI_shows; exact P1|]. auto.
  Qed.

  (** When a reply ends the catch-up, the ledger holds exactly the agreed transactions up
      to the target, its root is the agreed one, and the number reported is the difference
      of the sizes in the target. *)
  Theorem C38_complete_partial : forall p C0 os r frm, Holds p C0 -> prefix C0 L ->
    Forall (op_ok H B ser_tree L) os -> canonical B r ->
    let s := run os (init B p) in let s' := process_catchup_rep r frm s in
    s_working B s = true -> s_working B s' = false ->
    (exists c, Collision H c) \/
    exists t h l, s_till B s = Some t /\ t_hash t = Some h /\
      Shows (s_led B s') (mkLst (firstn (t_final t) L) [] false) /\
      ledger_root H (p_base (s_led B s')) = Ok h /\ size (p_base (s_led B s')) = t_final t /\
      s_log B s' = l ++ [LComplete B (t_final t - t_start t)] /\ idle B s'.
  Proof.
    intros p C0 os r frm HO P F CA s s' W1 W2.
    assert (SI : SInv H B ser_log ser_tree transform L C0 (init B p)).
    { exists C0. split; [apply (Holds_PI p C0 (init B p) HO); reflexivity|]. split; [exists []; rewrite app_nil_r; reflexivity|].
      split; [exact P|]. split; [intros frm' reps r' []|]. split; [exact I|]. split; [|discriminate].
      exists []. rewrite app_nil_r. split; [reflexivity|]. split; reflexivity. }
    destruct (run_inv H B ser_log ser_tree transform batch lid L FL inj numbered_L C0 os _ SI F) as [X|X]; [left; exact X|].
    destruct (rep_inv H B ser_log ser_tree transform lid L FL inj numbered_L C0 s r frm X CA) as [Y|[_ Y]]; [left; exact Y|].
    right. destruct (Y W1 W2) as (t & T & G & PP & l & E). destruct G as (GL & h & Eh & M).
    exists t, h, l. split; [exact T|]. split; [exact Eh|]. pose proof (PI_shows _ _ PP) as SH. split; [exact SH|].
    destruct SH as (S1 & (r0 & S2 & S3) & _). cbn [committed] in *. split; [|split].
    - transitivity (Ok r0); [exact S2|]. rewrite (MTH_mthh H _ _ S3), (MTH_mthh H _ _ M). reflexivity.
    - transitivity (length (firstn (t_final t) L)); [exact S1|]. rewrite firstn_length. lia.
    - split; [exact E|]. unfold s' in *. clear -W1 W2. unfold Catchup_Model.process_catchup_rep in *.
      destruct (negb (r_ledger B r =? lid)); [congruence|]. rewrite W1 in *. cbn [negb] in *.
      destruct (r_txns B r) as [l|]; [|cbn in W2; congruence].
      destruct (interesting B _ l) as [txns|]; [|cbn in W2; congruence].
      set (s1 := with_replies B _ _) in *. set (merged := merge_catchup_txns B _ txns) in *.
      assert (K : forall fuel tx num s0, s_working B (fst (process_loop H B ser_log ser_tree transform fuel tx num s0)) = s_working B s0).
      { assert (AD : forall tx s0, s_working B (fst (add_txns H B ser_log ser_tree transform tx s0)) = s_working B s0).
        { induction tx as [|(n, x) tx IH]; intros s0; [reflexivity|]. cbn [add_txns].
          destruct (bind (transform x) _) as [((mi, pl), ws)|e]; [|reflexivity]. rewrite IH. reflexivity. }
        induction fuel as [|fuel IH]; intros tx num s0; [reflexivity|]. cbn [process_loop].
        destruct tx as [|(n, x) tx']; [reflexivity|]. destruct (n =? _); [|reflexivity].
        destruct (has_valid_catchup_replies _ _ _ _ _ _ _) as [((ok, node), k)|e]; [|reflexivity].
        destruct ok; [|reflexivity].
        pose proof (AD (firstn k ((n, x) :: tx')) s0) as E. destruct (add_txns _ _ _ _ _ _ s0) as [s2 [u|e]]; cbn [fst] in E; [|exact E].
        rewrite IH. exact E. }
      assert (K1 : s_working B (fst (process_catchup_txns H B ser_log ser_tree transform merged s1)) = true).
      { unfold process_catchup_txns. rewrite K. exact W1. }
      destruct (process_catchup_txns H B ser_log ser_tree transform merged s1) as [s2 [num|e]]; cbn [fst] in K1;
        [|cbn in W2; congruence].
      cbn [s_till with_received] in *. destruct (s_till B s2) as [t|]; [|cbn in W2; congruence].
      destruct (t_final t <=? _); [|cbn in W2; congruence]. split; [reflexivity|split; reflexivity].
  Qed.

  (** If every reply is honest then, in whatever order they arrive and however they
      overlap, the catch-up ends as soon as they cover what is missing; it ends once, with
      exactly the agreed transactions, nobody is blacklisted and nothing is raised. *)
  Theorem C38_honest_completes : forall s C t el sh sz os U, Holds (s_led B s) C -> idle B s -> prefix C L ->
    good_till t -> t_start t = length C -> length C < t_final t ->
    (forall i l, Permutation l (sh i l)) -> NoDup (map fst sz) ->
    good_ops t os U -> (forall k, length C < k <= t_final t -> U k) ->
    let s' := run (OStart B (Some t) (Some sz) el sh :: os) s in
    idle B s' /\ Shows (s_led B s') (mkLst (firstn (t_final t) L) [] false) /\
    exists es, s_log B s' = s_log B s ++ es /\ Forall (kind_entry B) es /\ completes B es = 1.
  Proof.
    intros s C t el sh sz os U HO ID P G TS LT SH ND GO CV s'.
    destruct (start_live H B ser_log ser_tree transform batch lid L t s C el sh sz G ID (Holds_PI _ _ s HO eq_refl) P TS LT SH ND)
      as (LV & W & _ & LG).
    set (s1 := start B batch (Some t) (Some sz) el sh s) in *.
    destruct (run_live H B ser_log ser_tree transform batch lid L numbered_L t G os U GO s1 _ LV) as (LV' & es & E1 & E2 & _ & E3).
    change (run os s1) with s' in *. rewrite W in E3.
    destruct LV' as (C' & PP & PL & T & _ & [(W' & LT' & _ & NI & CV')|(W' & EC & ER)]).
    - exfalso. apply NI. apply CV'; [lia|]. destruct (Nat.le_gt_cases (S (length C')) (length C)) as [Z|Z]; [left; exact Z|].
      right. apply CV. lia.
    - split; [split; [exact W'|exact ER]|]. split; [rewrite <- EC; apply PI_shows; exact PP|].
      rewrite W' in E3. destruct el as [|e0 el'].
      + exists es. rewrite E1, LG. auto.
      + destruct LG as (reqs & LG & _). exists (entries B reqs ++ [LTimer B] ++ es). rewrite E1, LG, <- !app_assoc. split; [reflexivity|].
        split.
        * apply Forall_app. split; [|constructor; [exact I|exact E2]]. apply Forall_forall. intros e J.
          unfold entries in J. apply in_map_iff in J as ((n, r) & <- & _). exact I.
        * unfold completes in *. rewrite !filter_app, !app_length, E3. simpl.
          assert (Z : forall q, filter (fun e => match e with LComplete _ _ => true | _ => false end) (entries B q) = []).
          { induction q as [|(n, r) q IH]; [reflexivity|exact IH]. }
          rewrite Z. reflexivity.
  Qed.

  (** Until then the ledger holds everything that can be added: the first number it lacks
      is in none of the replies so far. *)
  Theorem C38_honest_progress : forall s C t el sh sz os U, Holds (s_led B s) C -> idle B s -> prefix C L ->
    good_till t -> t_start t = length C -> length C < t_final t ->
    (forall i l, Permutation l (sh i l)) -> NoDup (map fst sz) ->
    good_ops t os U ->
    let s' := run (OStart B (Some t) (Some sz) el sh :: os) s in
    exists n, length C <= n <= t_final t /\ Shows (s_led B s') (mkLst (firstn n L) [] false) /\
      (n < t_final t -> s_working B s' = true /\ ~ U (S n)) /\ (n = t_final t -> idle B s').
  Proof.
    intros s C t el sh sz os U HO ID P G TS LT SH ND GO s'.
    destruct (start_live H B ser_log ser_tree transform batch lid L t s C el sh sz G ID (Holds_PI _ _ s HO eq_refl) P TS LT SH ND)
      as (LV & W & LD & LG).
    set (s1 := start B batch (Some t) (Some sz) el sh s) in *.
    destruct (run_live H B ser_log ser_tree transform batch lid L numbered_L t G os U GO s1 _ LV) as (LV' & es & E1 & E2 & M & E3).
    change (run os s1) with s' in *.
    assert (M0 : length C <= csize B s').
    { rewrite <- (PI_size H B ser_log ser_tree s C (Holds_PI _ _ s HO eq_refl)). unfold csize in *. rewrite LD in M. exact M. }
    destruct LV' as (C' & PP & PL & T & _ & [(W' & LT' & _ & NI & CV')|(W' & EC & ER)]);
      rewrite (PI_size H B ser_log ser_tree _ _ PP) in M0; exists (length C').
    - split; [lia|]. split; [rewrite <- (prefix_eq B _ _ PL); apply PI_shows; exact PP|]. split; [|lia].
      intros _. split; [exact W'|]. intros X. apply NI. apply CV'; [lia|]. right. exact X.
    - assert (E : length C' = t_final t) by (rewrite EC, firstn_length; destruct G; lia).
      split; [lia|]. split; [rewrite <- (prefix_eq B _ _ PL); apply PI_shows; exact PP|]. split; [lia|]. intros _. split; assumption.
  Qed.

  (** ** C37: what is asked for *)

  (** On a start, each missing transaction is asked of exactly one eligible node, nothing
      else is asked for, and the timer is set. *)
  Theorem C37_start : forall s C t e0 el sh sz, Holds (s_led B s) C -> idle B s -> prefix C L ->
    good_till t -> t_start t = length C -> length C < t_final t ->
    (forall i l, Permutation l (sh i l)) -> NoDup (map fst sz) ->
    exists reqs, s_log B (start B batch (Some t) (Some sz) (e0 :: el) sh s) = s_log B s ++ entries B reqs ++ [LTimer B] /\
      covers (fun k => length C < k <= t_final t) reqs /\ reqs_to (e0 :: el) (t_final t) reqs.
  Proof.
    intros s C t e0 el sh sz HO ID P G TS LT SH ND.
    destruct (start_live H B ser_log ser_tree transform batch lid L t s C (e0 :: el) sh sz G ID (Holds_PI _ _ s HO eq_refl) P TS LT SH ND)
      as (_ & _ & _ & X). exact X.
  Qed.

  (** Whoever replies no longer owes a reply, whatever the reply is worth. *)
  Theorem C37_replied : forall s r frm, s_working B s = true -> r_ledger B r = lid ->
    ~ In frm (s_wait B (process_catchup_rep r frm s)).
  Proof.
    intros s r frm W E. unfold Catchup_Model.process_catchup_rep. rewrite E, Nat.eqb_refl, W. cbn [negb].
    set (s0 := with_wait B _ s).
    assert (N : ~ In frm (s_wait B s0)).
    { unfold s0. cbn. intros J. apply filter_In in J as [_ J]. rewrite Nat.eqb_refl in J. discriminate. }
    assert (AD : forall tx s1, s_wait B (fst (add_txns H B ser_log ser_tree transform tx s1)) = s_wait B s1).
    { induction tx as [|(n, x) tx IH]; intros s1; [reflexivity|]. cbn [add_txns].
      destruct (bind (transform x) _) as [((mi, pl), ws)|e]; [|reflexivity]. rewrite IH. reflexivity. }
    assert (K : forall fuel tx num s1, s_wait B (fst (process_loop H B ser_log ser_tree transform fuel tx num s1)) = s_wait B s1).
    { induction fuel as [|fuel IH]; intros tx num s1; [reflexivity|]. cbn [process_loop].
      destruct tx as [|(n, x) tx']; [reflexivity|]. destruct (n =? _); [|reflexivity].
      destruct (has_valid_catchup_replies _ _ _ _ _ _ _) as [((ok, node), k)|e]; [|reflexivity].
      destruct ok; [|reflexivity].
      pose proof (AD (firstn k ((n, x) :: tx')) s1) as Q. destruct (add_txns _ _ _ _ _ _ s1) as [s2 [u|e]]; cbn [fst] in Q; [|exact Q].
      rewrite IH. exact Q. }
    destruct (r_txns B r) as [l|]; [|exact N].
    destruct (interesting B _ l) as [txns|]; [|exact N].
    set (s1 := with_replies B _ _). set (merged := merge_catchup_txns B _ txns).
    assert (K1 : s_wait B (fst (process_catchup_txns H B ser_log ser_tree transform merged s1)) = s_wait B s0)
      by (unfold process_catchup_txns; rewrite K; reflexivity).
    destruct (process_catchup_txns H B ser_log ser_tree transform merged s1) as [s2 [num|e]]; cbn [fst] in K1;
      [|cbn; rewrite K1; exact N].
    cbn [s_till with_received] in *. destruct (s_till B s2) as [t|]; [|cbn; rewrite K1; exact N].
    destruct (t_final t <=? _); [intros []|cbn; rewrite K1; exact N].
  Qed.

  (** From [s] to [s'] the log grew, and the nodes that owe a reply grew by those that were asked. *)
  Definition Asked (s s' : st) : Prop :=
    exists es, s_log B s' = s_log B s ++ es /\
      forall n, In n (s_wait B s') <-> In n (s_wait B s) \/ exists q, In (LReq B n q) es.
  Lemma Asked_refl s : Asked s s.
  Proof. exists []. rewrite app_nil_r. split; [reflexivity|]. intros n. split; [auto|]. intros [J|(q & [])]. exact J. Qed.
  Lemma Asked_trans s1 s2 s3 : Asked s1 s2 -> Asked s2 s3 -> Asked s1 s3.
  Proof.
    intros (e1 & L1 & W1) (e2 & L2 & W2). exists (e1 ++ e2). split; [rewrite L2, L1, app_assoc; reflexivity|].
    intros n. rewrite W2, W1. split.
    - intros [[J|(q & J)]|(q & J)]; [left; exact J|right; exists q; apply in_or_app; auto|right; exists q; apply in_or_app; auto].
    - intros [J|(q & J)]; [auto|]. apply in_app_or in J as [J|J]; [left; right; exists q; exact J|right; exists q; exact J].
  Qed.
  Lemma Asked_emit s e : (forall n q, e <> LReq B n q) -> Asked s (emit B e s).
  Proof.
    intros N. exists [e]. split; [reflexivity|]. intros n. split; [auto|]. intros [J|(q & [J|[]])]; [exact J|].
    exfalso. exact (N n q J).
  Qed.
  Lemma Asked_send sh el a b s : Asked s (fst (send_catchup_reqs B batch sh el a b s)).
  Proof.
    unfold send_catchup_reqs. destruct (s_till B s) as [t|]; [|apply Asked_refl]. destruct (s_sizes B s) as [sz|]; [|apply Asked_refl].
    destruct (build_catchup_reqs _ _ _ _ _ _) as [reqs|e]; [|apply Asked_refl]. cbn [fst].
    clear -reqs. revert s. induction reqs as [|(n, q) reqs IH]; intros s; [apply Asked_refl|]. cbn [fold_left].
    eapply Asked_trans; [|apply IH]. exists [LReq B n q]. split; [reflexivity|]. intros m.
    change (s_wait B (emit B (LReq B n q) (with_wait B (add n (s_wait B s)) s))) with (add n (s_wait B s)).
    rewrite add_in. split.
    - intros [->|J]; [right; exists q; left; reflexivity|auto].
    - intros [J|(q' & [J|[]])]; [auto|]. injection J as -> _. auto.
  Qed.
  Lemma Asked_gaps sh el : forall txns k last m s, Asked s (fst (request_gaps B batch sh k el txns last m s)).
  Proof.
    induction txns as [|(n, x) txns IH]; intros k last m s; [apply Asked_refl|]. cbn [request_gaps].
    destruct (n =? last + 1); [apply IH|].
    pose proof (Asked_send (sh k) el (last + 1) (n - 1) s) as A.
    destruct (send_catchup_reqs B batch (sh k) el (last + 1) (n - 1) s) as [s' [u|e]]; cbn [fst] in A; [|exact A].
    eapply Asked_trans; [exact A|apply IH].
  Qed.
  (** Exactly the nodes that are sent a request start to owe a reply ... *)
  Theorem C37_awaited_start : forall s t sz e0 el sh, csize B s < t_final t ->
    Asked s (start B batch (Some t) sz (e0 :: el) sh s).
  Proof.
    intros s t sz e0 el sh LT.
    unfold start. change (csize B _) with (csize B s) at 1. destruct (Nat.leb_spec (t_final t) (csize B s)); [lia|].
    set (s0 := mkSt _ _ _ _ _ _ _ _ _). pose proof (Asked_send (sh 0) (e0 :: el) (t_start t + 1) (t_final t) s0) as A.
    assert (A0 : Asked s s0) by (destruct (Asked_refl s) as (es & E & W); exists es; split; [exact E|exact W]).
    destruct (send_catchup_reqs _ _ _ _ _ _ s0) as [s' [u|e]]; cbn [fst] in A;
      (eapply Asked_trans; [exact A0|]; eapply Asked_trans; [exact A|]; apply Asked_emit; discriminate).
  Qed.
  (** ... and the timer forgets who owed one before. *)
  Theorem C37_awaited_timer : forall s el sh,
    request_txns_if_needed B batch el sh s = s \/
    Asked (with_wait B [] s) (request_txns_if_needed B batch el sh s).
  Proof.
    intros s el sh. unfold request_txns_if_needed. destruct (negb (s_working B s)); [left; reflexivity|].
    destruct (num_missing B s =? 0); [left; reflexivity|]. right.
    set (el' := if forallb _ el then el else _). set (s0 := with_wait B [] s).
    destruct el' as [|e0 el'']; [apply Asked_refl|]. clear el. destruct (s_till B s0) as [t|]; [|apply Asked_refl].
    pose proof (Asked_gaps sh (e0 :: el'') (s_received B s0) 0 (csize B s0) (Z.of_nat (num_missing B s0)) s0) as A.
    destruct (request_gaps _ _ _ _ _ _ _ _ s0) as [s1 [((k, last), m)|e]]; cbn [fst] in A.
    - destruct (0 <? m)%Z; [|eapply Asked_trans; [exact A|apply Asked_emit; discriminate]].
      destruct ((last =? csize B s1) || negb (last =? t_final t)); [|eapply Asked_trans; [exact A|apply Asked_emit; discriminate]].
      pose proof (Asked_send (sh k) (e0 :: el'') (last + 1) (t_final t) s1) as A2.
      destruct (send_catchup_reqs _ _ _ _ _ _ s1) as [s2 [u|e]]; cbn [fst] in A2;
        (eapply Asked_trans; [exact A|]; eapply Asked_trans; [exact A2|]; apply Asked_emit; discriminate).
    - eapply Asked_trans; [exact A|apply Asked_emit; discriminate].
  Qed.

  (** While all replies are honest and the catch-up is not done, a timer call asks once for
      each transaction that is neither in the ledger nor in a reply received so far, for
      nothing else, of nodes that owe no reply if there are any, and sets the timer again. *)
  Theorem C37_timer : forall s C t el0 sh0 sz os U e0 el sh, Holds (s_led B s) C -> idle B s -> prefix C L ->
    good_till t -> t_start t = length C -> length C < t_final t ->
    (forall i l, Permutation l (sh0 i l)) -> NoDup (map fst sz) -> good_ops t os U ->
    (forall i l, Permutation l (sh i l)) ->
    let s' := run (OStart B (Some t) (Some sz) el0 sh0 :: os) s in
    s_working B s' = true ->
    exists reqs, s_log B (request_txns_if_needed B batch (e0 :: el) sh s') = s_log B s' ++ entries B reqs ++ [LTimer B] /\
      covers (fun k => size (p_base (s_led B s')) < k <= t_final t /\ ~ U k) reqs /\
      reqs_to (targets B s' (e0 :: el)) (t_final t) reqs.
  Proof.
    intros s C t el0 sh0 sz os U e0 el sh HO ID P G TS LT SH0 ND GO SH s' W'.
    destruct (start_live H B ser_log ser_tree transform batch lid L t s C el0 sh0 sz G ID (Holds_PI _ _ s HO eq_refl) P TS LT SH0 ND)
      as (LV & W & LD & LG).
    set (s1 := start B batch (Some t) (Some sz) el0 sh0 s) in *.
    destruct (run_live H B ser_log ser_tree transform batch lid L numbered_L t G os U GO s1 _ LV) as (LV' & es & E1 & E2 & M & E3).
    change (run os s1) with s' in *.
    assert (M0 : length C <= csize B s').
    { rewrite <- (PI_size H B ser_log ser_tree s C (Holds_PI _ _ s HO eq_refl)). unfold csize in *. rewrite LD in M. exact M. }
    destruct (timer_live H B ser_log ser_tree transform batch lid L t s' _ (e0 :: el) sh G LV' SH) as (_ & _ & _ & X).
    rewrite W' in X. destruct X as (reqs & X1 & X2 & X3). exists reqs. split; [exact X1|]. split; [|exact X3].
    revert X2. apply covers_ext. intros k. unfold csize in *. split; [tauto|]. intros [Y1 Y2]. split; [exact Y1|]. intros [Z|Z]; [lia|tauto].
  Qed.

  (** ** C50: who is blacklisted *)

  (** Only a node that has sent a reply is ever blacklisted, in any history whatever. *)
  Theorem C50_only_senders : forall p os n, In (LBlack B n) (s_log B (run os (init B p))) -> exists r, In (ORep B r n) os.
  Proof.
    intros p os n.
    assert (REM : forall k (reps : list (rep B)), remove_first B k reps <> [] -> reps <> []).
    { intros k [|r reps] X; [exact X|discriminate]. }
    set (J := fun (senders : nat -> Prop) (s : st) =>
      (forall m reps, In (m, reps) (s_replies B s) -> reps <> [] -> senders m) /\
      (forall m, In (LBlack B m) (s_log B s) -> senders m)).
    assert (JW : forall senders s s', J senders s -> s_replies B s' = s_replies B s ->
      (forall m, In (LBlack B m) (s_log B s') -> In (LBlack B m) (s_log B s)) -> J senders s').
    { intros senders s s' [J1 J2] E F. split; [rewrite E; exact J1|auto]. }
    assert (JM : forall (P Q : nat -> Prop) s, (forall m, P m -> Q m) -> J P s -> J Q s).
    { intros P Q s PQ [J1 J2]. split; [intros m reps X Y; apply PQ; eauto|auto]. }
    assert (JE : forall senders s e, J senders s -> (forall m, e <> LBlack B m) -> J senders (emit B e s)).
    { intros senders s e JJ NE. apply (JW senders s); [exact JJ|reflexivity|]. cbn [s_log emit]. intros m X.
      apply in_app_iff in X as [X|[X|[]]]; [exact X|]. exfalso. exact (NE m X). }
    assert (ST : forall os s senders, J senders s -> J (fun m => senders m \/ exists r, In (ORep B r m) os) (run os s)).
    { clear os. induction os as [|o os IH]; intros s senders JJ.
      - revert JJ. apply JM. auto.
      - change (run (o :: os) s) with (run os (step H B ser_log ser_tree transform batch lid s o)).
        assert (J1 : J (fun m => senders m \/ exists r, In (ORep B r m) [o]) (step H B ser_log ser_tree transform batch lid s o)).
        { destruct o as [t sizes eligible sh|r frm|eligible sh]; cbn [step].
          - apply (JM senders); [auto|]. unfold start. set (s0 := mkSt B _ true t sizes _ _ _ _).
            assert (J0 : J senders s0) by exact JJ.
            assert (JF : forall s2, J senders s2 -> J senders (finish B s2)).
            { intros s2 [A1 A2]. split; [intros m reps []|]. cbn [s_log finish]. intros m X. apply in_app_iff in X as [X|[X|[]]]; [auto|discriminate]. }
            destruct t as [t|]; [|apply JF; exact J0]. destruct (t_final t <=? csize B s0); [apply JF; exact J0|].
            destruct eligible as [|e0 el]; [exact J0|].
            pose proof (send_sends B batch (sh 0) (e0 :: el) (t_start t + 1) (t_final t) s0) as SS.
            destruct (send_catchup_reqs B batch (sh 0) (e0 :: el) (t_start t + 1) (t_final t) s0) as [s1 [j|e]]; cbn [fst] in SS;
              destruct SS as ((_ & _ & _ & _ & R5 & _) & es & R7 & R8); (apply JE; [|discriminate]);
              (apply (JW senders s0); [exact J0|exact R5|]); intros m X; rewrite R7 in X; apply in_app_iff in X as [X|X]; auto;
              exfalso; rewrite Forall_forall in R8; exact (R8 _ X).
          - unfold Catchup_Model.process_catchup_rep.
            assert (Js : J (fun m => senders m \/ exists r0, In (ORep B r0 m) [ORep B r frm]) s) by (revert JJ; apply JM; auto).
            set (sd := fun m => senders m \/ exists r0, In (ORep B r0 m) [ORep B r frm]) in *.
            destruct (negb (r_ledger B r =? lid)); [exact Js|]. destruct (negb (s_working B s)); [exact Js|].
            set (s0 := with_wait B _ s). assert (J0 : J sd s0) by exact Js.
            destruct (r_txns B r) as [l|]; [|apply JE; [exact J0|discriminate]].
            destruct (interesting B (csize B s0) l) as [txns|]; [|apply JE; [exact J0|discriminate]].
            set (s1 := with_replies B _ s0).
            assert (J1 : J sd s1).
            { split; [|apply J0]. intros m reps X NE. unfold s1 in X. cbn [s_replies with_replies] in X.
              apply in_set in X as [[-> _]|X]; [|exact (proj1 J0 _ _ X NE)]. right. exists r. left. reflexivity. }
            assert (RP : forall s2 node k, J sd s2 -> J sd (remove_processed B node k s2)).
            { intros s2 node k [A1 A2]. split; [|exact A2]. intros m reps X NE. unfold remove_processed in X. cbn [s_replies with_replies] in X.
              apply in_set in X as [[-> ->]|X]; [|exact (A1 _ _ X NE)]. apply REM in NE.
              destruct (get_or node [] (s_replies B s2)) as [|r0 rs] eqn:Eg; [congruence|].
              assert (In r0 (get_or node [] (s_replies B s2))) as Y by (rewrite Eg; left; reflexivity).
              apply get_or_in in Y as (l0 & Y1 & Y2). apply (A1 _ _ Y1). intros ->. destruct Y2. }
            assert (AD : forall tx s2, J sd s2 -> J sd (fst (add_txns H B ser_log ser_tree transform tx s2))).
            { induction tx as [|(k, x) tx IHx]; intros s2 J2; [exact J2|]. cbn [add_txns].
              destruct (bind (transform x) _) as [((mi, q), ws)|e]; [|exact J2]. apply IHx. apply JE; [exact J2|discriminate]. }
            assert (LP : forall fuel tx num s2, J sd s2 -> J sd (fst (process_loop H B ser_log ser_tree transform fuel tx num s2))).
            { induction fuel as [|fuel IHf]; intros tx num s2 J2; [exact J2|]. cbn [process_loop].
              destruct tx as [|(k, x) tx']; [exact J2|]. destruct (k =? _); [|exact J2].
              destruct (has_valid_catchup_replies H B ser_tree transform s2 k ((k, x) :: tx')) as [((ok, node), j)|e] eqn:HV; [|exact J2].
              destruct ok.
              - pose proof (AD (firstn j ((k, x) :: tx')) s2 J2) as A. destruct (add_txns _ _ _ _ _ _ s2) as [s3 [u|e]]; cbn [fst] in A; [|exact A].
                apply IHf. apply RP. exact A.
              - cbn [fst]. apply RP. split; [apply J2|]. cbn [s_log emit]. intros m X. apply in_app_iff in X as [X|[X|[]]]; [apply J2; exact X|].
                injection X as <-. unfold has_valid_catchup_replies in HV.
                destruct (find_reply B k (s_replies B s2)) as [(node', r')|] eqn:FR; [|destruct (s_till B s2); discriminate].
                destruct (s_till B s2); [|discriminate]. destruct (mapM transform _); [|discriminate]. cbn [bind] in HV.
                destruct (treeWithAppliedTxns _ _ _ _ _ _); [|discriminate]. cbn [bind] in HV. injection HV as _ <- _.
                apply find_reply_in in FR as (reps & F1 & F2 & _). apply (proj1 J2 _ _ F1). intros ->. destruct F2. }
            unfold process_catchup_txns. set (mg := merge_catchup_txns B _ txns).
            match goal with |- context [process_loop H B ser_log ser_tree transform ?f ?tx ?nm ?st0] => pose proof (LP f tx nm st0 J1) as J2;
              destruct (process_loop H B ser_log ser_tree transform f tx nm st0) as [s2 [num|e]] end; cbn [fst] in J2;
              [|apply JE; [exact J2|discriminate]].
            cbn [s_till with_received]. destruct (s_till B s2) as [t|]; [|apply JE; [exact J2|discriminate]].
            destruct (t_final t <=? _); [|exact J2]. split; [intros m reps []|]. unfold finish. cbn [s_log s_till with_received].
            intros m X. apply in_app_iff in X as [X|[X|[]]]; [apply J2; exact X|]. destruct (s_till B s2); discriminate.
          - apply (JM senders); [auto|]. pose proof (timer_frame B batch eligible sh s) as TF. cbv zeta in TF.
            destruct TF as ((_ & _ & _ & _ & R5 & _) & es & R7 & R8). apply (JW senders s); [exact JJ|exact R5|].
            intros m X. rewrite R7 in X. apply in_app_iff in X as [X|X]; auto. exfalso. rewrite Forall_forall in R8. exact (R8 _ X). }
        specialize (IH _ _ J1). revert IH. apply JM. intros m [[X|(r & [X|[]])]|(r & X)]; [auto|right; exists r; left; exact X|right; exists r; right; exact X]. }
    intros X. assert (J0 : J (fun _ => False) (init B p)) by (split; [intros m reps []|intros m []]).
    destruct (proj2 (ST os _ _ J0) n X) as [[]|Y]. exact Y.
  Qed.

  (** A node whose first reply starts right after the ledger's end and does not continue
      the ledger along the agreed transactions is blacklisted, and nothing is added. *)
  Theorem C50_bad_reply : forall s C t el sh sz r frm n l ys, Holds (s_led B s) C -> idle B s -> prefix C L ->
    good_till t -> t_start t = length C -> length C < t_final t ->
    (forall i l, Permutation l (sh i l)) -> NoDup (map fst sz) ->
    r_ledger B r = lid -> ranged B r (S (length C)) n -> r_txns B r = Some l ->
    mapM transform (map snd (sort_by B (map (fun '(k, x) => (fst k, x)) l))) = Ok ys ->
    ~ prefix (C ++ ys) (firstn (t_final t) L) ->
    (exists c, Collision H c) \/
    let s' := run [OStart B (Some t) (Some sz) el sh; ORep B r frm] s in
    In (LBlack B frm) (s_log B s') /\ s_led B s' = s_led B s /\ s_working B s' = true.
  Proof.
    intros s C t el sh sz r frm n l ys HO ID P G TS LT SH ND EL R ER MT NP.
    destruct (start_live H B ser_log ser_tree transform batch lid L t s C el sh sz G ID (Holds_PI _ _ s HO eq_refl) P TS LT SH ND)
      as (LV & W & LD & LG).
    cbn [Catchup_Model.run fold_left step]. set (s1 := start B batch (Some t) (Some sz) el sh s) in *.
    assert (FR : s_replies B s1 = [] /\ s_received B s1 = [] /\ s_till B s1 = Some t).
    { destruct ID as (_ & I2 & I3). unfold s1, start. set (s0 := mkSt B _ true _ _ _ _ _ _).
      replace (t_final t <=? csize B s0) with false
        by (symmetry; apply Nat.leb_gt; change (csize B s0) with (csize B s);
            rewrite (PI_size H B ser_log ser_tree s C (Holds_PI _ _ s HO eq_refl)); exact LT).
      destruct el as [|e0 el']; [repeat split; assumption|].
      pose proof (send_sends B batch (sh 0) (e0 :: el') (t_start t + 1) (t_final t) s0) as SS.
      destruct (send_catchup_reqs B batch (sh 0) (e0 :: el') (t_start t + 1) (t_final t) s0) as [s2 [j|e]]; cbn [fst] in SS;
        destruct SS as ((_ & _ & R3 & _ & R5 & R6) & _); cbn [s_replies s_received s_till emit];
        rewrite R3, R5, R6; repeat split; assumption. }
    destruct FR as (F1 & F2 & F3). unfold Catchup_Model.process_catchup_rep. rewrite EL, Nat.eqb_refl, W. cbn [negb].
    rewrite ER. set (s2 := with_wait B _ s1).
    assert (P1 : PI s1 C) by (apply (Holds_PI _ _ s1 HO); exact LD). assert (P2 : PI s2 C) by exact P1.
    rewrite (PI_size H B ser_log ser_tree _ _ P2).
    pose proof R as (l' & ER' & CA & N0 & PM). rewrite ER in ER'. injection ER' as <-.
    assert (NG : length C < S (length C) + n - 1) by lia.
    destruct (interesting_complete B (length C) l (S (length C)) n PM N0 NG) as (txns & EI). rewrite EI.
    destruct (interesting_ranged B r l (length C) txns) as (a' & L0 & SQ & R' & MEM & _).
    { intros l' k x E J. rewrite ER in E. injection E as <-. exact (CA k x J). }
    { exact ER. }
    { exact EI. }
    assert (ET : txns = sort_by B (map (fun '(k, x) => (fst k, x)) l)).
    { unfold interesting in EI. destruct (negb (existsb _ _)); [discriminate|]. destruct (negb (contiguous B _)); [discriminate|]. congruence. }
    rewrite <- ET in MT.
    assert (LN : length txns = n /\ a' = S (length C)).
    { destruct R' as (l2 & E2 & _ & _ & PM2). rewrite ER in E2. injection E2 as <-.
      assert (Q : Permutation (seq a' (length txns)) (seq (S (length C)) n)) by (eapply perm_trans; [apply Permutation_sym; exact PM2|exact PM]).
      pose proof (Permutation_length Q) as QL. rewrite !seq_length in QL. split; [exact QL|]. rewrite QL in *.
      assert (In a' (seq (S (length C)) n)) as X1 by (apply (Permutation_in _ Q); apply in_seq; lia). apply in_seq in X1.
      assert (In (S (length C)) (seq a' n)) as X2 by (apply (Permutation_in _ (Permutation_sym Q)); apply in_seq; lia). apply in_seq in X2. lia. }
    destruct LN as [LN ->].
    destruct txns as [|(k0, x0) rest] eqn:Etx; [simpl in L0; lia|]. rewrite <- Etx in *.
    assert (k0 = S (length C)) as ->.
    { rewrite Etx in SQ. cbn [map length seq fst] in SQ. injection SQ as SQ _. exact SQ. }
    change (s_replies B s2) with (s_replies B s1). rewrite F1. change (s_received B (with_replies B _ s2)) with (s_received B s1). rewrite F2.
    assert (MG : merge_catchup_txns B [] txns = txns) by (rewrite Etx; reflexivity). rewrite MG.
    set (s3 := with_replies B _ s2). assert (P3 : PI s3 C) by exact P1.
    unfold process_catchup_txns. rewrite (PI_size H B ser_log ser_tree _ _ P3).
    assert (F0 : length (filter (fun x => fst x <=? length C) txns) = 0).
    { assert (A : forall x, In x txns -> length C < fst x).
      { intros x J. apply (in_map fst) in J. rewrite SQ in J. apply in_seq in J. lia. }
      clear -A. induction txns as [|x txns IH]; [reflexivity|]. simpl. pose proof (A x (or_introl eq_refl)).
      destruct (Nat.leb_spec (fst x) (length C)); [lia|]. apply IH. intros y J. apply A. right. exact J. }
    rewrite F0. cbn [skipn].
    destruct (length txns) as [|fuel] eqn:Ef; [lia|].
    assert (STEP : forall tx node k, tx = (S (length C), x0) :: rest ->
      has_valid_catchup_replies H B ser_tree transform s3 (S (length C)) tx = Ok (false, node, k) ->
      process_loop H B ser_log ser_tree transform (S fuel) tx 0 s3 =
        (remove_processed B node (S (length C)) (emit B (LBlack B node) s3), Ok k)).
    { intros tx node k E HV. subst tx. cbn [process_loop]. rewrite (PI_seqNo H B ser_log ser_tree _ _ P3).
      rewrite Nat.add_1_r, Nat.eqb_refl, HV. reflexivity. }
    assert (IR : forall x, In x txns -> in_rep B (fst x) r = true).
    { intros (k, x) J. apply (ranged_in B _ _ _ _ R'). apply (in_map fst) in J. rewrite SQ in J. apply in_seq in J. exact J. }
    assert (FRP : find_reply B (S (length C)) (s_replies B s3) = Some (frm, r)).
    { unfold s3. cbn [s_replies with_replies get_or get set app find_reply find].
      pose proof (IR (S (length C), x0)) as X. cbn [fst] in X. rewrite X by (rewrite Etx; left; reflexivity). reflexivity. }
    assert (RL : rep_len B r = length txns).
    { unfold rep_len. rewrite ER. apply Permutation_length in PM. rewrite map_length, seq_length in PM. transitivity n; [exact PM|]. congruence. }
    assert (FI : filter (fun x => in_rep B (fst x) r) (firstn (rep_len B r) txns) = txns).
    { rewrite RL, firstn_all. clear -IR. induction txns as [|x txns IH]; [reflexivity|]. simpl. rewrite (IR x (or_introl eq_refl)). f_equal.
      apply IH. intros y J. apply IR. right. exact J. }
    assert (HV := has_valid_eq H B ser_log ser_tree transform s3 C (S (length C)) txns frm r t ys P3 FRP F3 ltac:(rewrite FI; exact MT)).
    revert HV. set (ok := match t_hash t with Some _ => _ | None => _ end). destruct ok eqn:EO; intros HV.
    - left. unfold ok in EO. destruct (t_hash t) as [h|] eqn:Eh; [|discriminate]. destruct (r_proof B r) as [pf|]; [|discriminate].
      destruct (verify_tree_consistency H _ _ _ h pf) as [[]|] eqn:V; [|discriminate].
      destruct (check_sound H B ser_tree L FL inj _ _ _ _ G Eh V) as [X|X]; [exact X|]. exfalso. exact (NP X).
    - right. cbv zeta. rewrite (STEP txns frm (length ys) Etx HV). set (s4 := remove_processed B frm (S (length C)) (emit B (LBlack B frm) s3)).
      change (s_till B (with_received B _ s4)) with (s_till B s1). rewrite F3.
      change (csize B (with_received B _ s4)) with (csize B s1). rewrite (PI_size H B ser_log ser_tree _ _ P1).
      destruct (Nat.leb_spec (t_final t) (length C)) as [Z|_]; [lia|]. split; [|split; [exact LD|exact W]].
      cbn. apply in_app_iff. right. left. reflexivity.
  Qed.
End Props.

(** ** Concrete cases *)
Definition exB : list N := [10; 11; 12; 13; 14; 15; 16; 17]%N.
Definition exL : list (txn N) := numbered 0 exB.
Definition exT (x : txn N) : res (txn N) := if N.eqb (t_body x) 99 then Err LogicError else Ok x.
Definition ex_p_of (k : nat) : res (pledger N) :=
  bind (new_ledger toyH N deser1 ser1) (fun p0 =>
  bind (Ledger_Model.run toyH N ser1 deser1 ser1 p0 [OApply (firstn k exB); OCommit k]) (fun p => Ok (reset_uncommitted p))).
Definition ex_p4 : pledger N.
Proof. let r := eval vm_compute in (ex_p_of 4) in match r with Ok ?p => exact p end. Defined.
Definition ex_store : store :=
  match mt_appends toyH (empty_tree, empty_store) (map ser1 exL) with Ok (_, s) => s | Err _ => empty_store end.
Definition ex_proof (m : nat) : option (list bytes) :=
  match consistency_proof toyH ex_store m 8 with Ok p => Some p | Err _ => None end.
Definition ex_till : till := mkTill 4 8 (Some (mthh toyH (map (hash_leaf toyH) (map ser1 exL)))).
Definition ex_sizes : dict nat := [(2, 8); (3, 8); (4, 6)].
Definition ex_start : op N := OStart N (Some ex_till) (Some ex_sizes) [2; 3; 4] (fun _ l => l).
Definition at_ (n : nat) : ckey := (n, 0).
Definition tx (n : nat) : txn N := nth (n - 1) exL (mkTxn 0%N None).
Definition ex_rep (ns : list nat) : rep N :=
  mkRep N 1 (Some (map (fun n => (at_ n, tx n)) ns)) (ex_proof (fold_left Nat.max ns 0)).
Definition junk (n : nat) : ckey * txn N := (at_ n, mkTxn 7%N (Some n)).
Notation ex_run os := (Catchup_Model.run toyH N ser1 ser1 exT 2 1 os (init N ex_p4)).
Definition log_of (s : st N) := s_log N s.
Definition logged_of (s : st N) := logged N deser1 (l_disk (p_base (s_led N s))).

(** The hypotheses of the theorems hold in this case. *)
Lemma ex_holds_p p : ex_p_of 4 = Ok p -> Holds toyH N ser1 deser1 ser1 p (firstn 4 exL).
Proof.
  unfold ex_p_of. intros E.
  exists [OApply (firstn 4 exB); OCommit 4].
  destruct (new_ledger toyH N deser1 ser1) as [p0|] eqn:E0; [|discriminate E]. cbn [bind] in E.
  destruct (Ledger_Model.run toyH N ser1 deser1 ser1 p0 [OApply (firstn 4 exB); OCommit 4]) as [q|] eqn:E1; [|discriminate E].
  cbn [bind] in E. exists p0, q. split; [split; [exact I|]; intros s' S'; split; [exact I|]; intros s'' S''; exact I|].
  split; [reflexivity|]. split; [exact E1|].
  assert (EP : p = reset_uncommitted q) by congruence.
  split; [exact EP|].
  destruct (new_ok toyH N ser1 deser1 ser1 ser1_ok) as (q0 & F0 & I0). assert (q0 = p0) by congruence. subst q0.
  destruct (run_sim toyH N ser1 deser1 ser1 ser1_ok [OApply (firstn 4 exB); OCommit 4] p0 _ I0) as (q' & s' & F & St & IQ).
  { split; [exact I|]. intros s' S'. split; [exact I|]. intros s'' S''. exact I. }
  assert (q' = q) by congruence. subst q'.
  assert (SC : committed s' = firstn 4 exL).
  { inversion St as [|? ? s1 ? ? S1 S2]; subst. inversion S1; subst. inversion S2 as [|? ? s2 ? ? S3 S4]; subst.
    inversion S4; subst. inversion S3; subst. reflexivity. }
  destruct IQ as (LI & EU & Q & D). rewrite <- SC. rewrite EP.
  apply (PInv_Shows toyH N ser1 deser1 ser1 ser1_ok ser1_nonempty toyH_nonempty).
  apply (fresh_PInv toyH N ser1 ser1 (p_base q)); [exact LI|].
  intros i x NI. apply (Q i x). rewrite nth_error_app1; [exact NI|]. apply nth_error_Some. congruence.
Qed.
Example ex_holds : Holds toyH N ser1 deser1 ser1 ex_p4 (firstn 4 exL).
Proof. apply ex_holds_p. vm_compute. reflexivity. Qed.
Example ex_numbered : forall i x, nth_error exL i = Some x -> t_seq x = Some (S i).
Proof. intros i x E. do 8 (destruct i as [|i]; [injection E as <-; reflexivity|]). destruct i; discriminate. Qed.
Example ex_inj : forall x y, ser1 x = ser1 y -> x = y.
Proof. intros x y E. rewrite <- (ser1_ok x), <- (ser1_ok y), E. reflexivity. Qed.
Example ex_good_till : Catchup_Spec.good_till toyH N ser1 exL ex_till.
Proof.
  split; [vm_compute; lia|]. exists (mthh toyH (map (hash_leaf toyH) (map ser1 exL))). split; [reflexivity|]. apply mthh_MTH.
Qed.
Lemma ex_honest ns a n : map (fun k => k) ns <> [] -> Permutation ns (seq a n) -> 0 < n -> 1 <= a -> a + n - 1 <= 8 ->
  fold_left Nat.max ns 0 = a + n - 1 ->
  (exists pf, ex_proof (a + n - 1) = Some pf /\
    verify_tree_consistency toyH (a + n - 1) 8 (mthh toyH (map (hash_leaf toyH) (map ser1 (firstn (a + n - 1) exL))))
      (mthh toyH (map (hash_leaf toyH) (map ser1 exL))) pf = Ok tt) ->
  (forall k, In k ns -> exT (tx k) = Ok (tx k)) ->
  Catchup_Spec.honest toyH N ser1 exT 1 exL ex_till (ex_rep ns) a n.
Proof.
  intros _ P N0 A1 A8 MX (pf & E & V) TR. split; [reflexivity|]. split.
  { exists (map (fun k => (at_ k, tx k)) ns). split; [reflexivity|]. split; [intros k x J; apply in_map_iff in J as (i & Ei & _); injection Ei as <- _; reflexivity|].
    split; [exact N0|]. rewrite map_map. cbn. rewrite map_id. exact P. }
  split; [exact A1|]. split; [exact A8|]. split.
  { intros l k x El J. injection El as <-. apply in_map_iff in J as (i & Ei & I). injection Ei as <- <-. exists (tx i).
    split; [|apply TR; exact I]. apply (Permutation_in _ P) in I. apply in_seq in I. cbn [fst at_]. unfold tx.
    apply nth_error_nth'. change (length exL) with 8. lia. }
  exists pf, (mthh toyH (map (hash_leaf toyH) (map ser1 (firstn (a + n - 1) exL)))), (mthh toyH (map (hash_leaf toyH) (map ser1 exL))).
  split; [unfold ex_rep; cbn [r_proof]; rewrite MX; exact E|]. split; [reflexivity|]. split; [apply mthh_MTH|exact V].
Qed.
Definition ex_ops : list (op N) := [ORep N (ex_rep [7; 8]) 3; OTimer N [2; 3; 4] (fun _ l => l); ORep N (ex_rep [6; 5]) 2].
Example ex_good_ops : Catchup_Spec.good_ops toyH N ser1 exT 1 exL ex_till ex_ops
  (fun k => 7 <= k < 7 + 2 \/ False \/ 5 <= k < 5 + 2 \/ False).
Proof.
  unfold ex_ops. apply GCons; [apply GRep|apply GCons; [apply GTimer; intros; apply Permutation_refl|apply GCons; [apply GRep|apply GNil]]].
  - apply ex_honest; try lia; try discriminate; [apply Permutation_refl|reflexivity| |].
    + eexists. split; vm_compute; reflexivity.
    + intros k [<-|[<-|[]]]; reflexivity.
  - apply ex_honest; try lia; try discriminate; [apply perm_swap|reflexivity| |].
    + eexists. split; vm_compute; reflexivity.
    + intros k [<-|[<-|[]]]; reflexivity.
Qed.
Example ex_idle : idle N (init N ex_p4). Proof. split; [reflexivity|split; reflexivity]. Qed.
Example C38_example :
  let s := ex_run (ex_start :: ex_ops) in
  s_log N s = [LReq N 2 (mkReq 7 8 8); LReq N 3 (mkReq 5 6 8); LTimer N; LReq N 3 (mkReq 5 6 8); LTimer N;
               LAdded N 4 (tx 5); LAdded N 5 (tx 6); LAdded N 6 (tx 7); LAdded N 7 (tx 8); LComplete N 4] /\
  logged_of s = exL /\ s_working N s = false.
Proof. split; [vm_compute; reflexivity|]. split; vm_compute; reflexivity. Qed.

(** ** What does not hold *)

(** One node can make another add a transaction nobody agreed on: in its reply the key of
    the foreign transaction is an unusual spelling of its number. The check looks for the
    usual spelling and takes the transaction after it instead; the ledger then gets the
    foreign one. *)
Theorem C38_unusual_key_refuted : exists os, 
  Forall (fun o => match o with OStart _ (Some t) _ _ _ => Catchup_Spec.good_till toyH N ser1 exL t | _ => True end) os /\
  logged_of (ex_run os) = firstn 5 exL ++ [mkTxn 66%N (Some 6)] /\
  ~ Catchup_Spec.prefix N (logged_of (ex_run os)) exL.
Proof.
  exists [ex_start; ORep N (mkRep N 1 (Some [((5, 0), tx 5); ((6, 1), mkTxn 66%N (Some 6)); ((7, 0), tx 6)]) (ex_proof 6)) 2].
  split; [constructor; [exact ex_good_till|constructor; [exact I|constructor]]|].
  assert (E : logged_of (ex_run [ex_start; ORep N (mkRep N 1 (Some [((5, 0), tx 5); ((6, 1), mkTxn 66%N (Some 6)); ((7, 0), tx 6)]) (ex_proof 6)) 2])
    = firstn 5 exL ++ [mkTxn 66%N (Some 6)]) by (vm_compute; reflexivity).
  split; [exact E|]. rewrite E. intros (rest & X). discriminate X.
Qed.

(** Transactions beyond the target count as received: the timer then finds nothing missing,
    asks nobody and is not set again, although the ledger is not complete. *)
Theorem C37_stall_refuted : exists os, Forall (Catchup_Spec.op_ok toyH N ser1 exL) os /\
  let s := ex_run os in
  s_working N s = true /\ size (p_base (s_led N s)) < 8 /\
  request_txns_if_needed N 2 [2; 3; 4] (fun _ l => l) s = s.
Proof.
  exists [ex_start; ORep N (mkRep N 1 (Some [junk 10; junk 11; junk 12; junk 13]) None) 3].
  split; [constructor; [exact ex_good_till|constructor; [|constructor]]|].
  - intros l k x E J. injection E as <-. simpl in J. destruct J as [J|[J|[J|[J|[]]]]]; injection J as <- _; reflexivity.
  - split; [vm_compute; reflexivity|]. split; [vm_compute; lia|]. vm_compute. reflexivity.
Qed.

(** Or they make the timer's callback raise, and it is not set again either. *)
Theorem C37_timer_raises_refuted : exists os, Forall (Catchup_Spec.op_ok toyH N ser1 exL) os /\
  let s := ex_run os in
  s_working N s = true /\ size (p_base (s_led N s)) < 8 /\
  s_log N (request_txns_if_needed N 2 [2; 3; 4] (fun _ l => l) s) = s_log N s ++ [LRaise N TypeError].
Proof.
  exists [ex_start; ORep N (mkRep N 1 (Some [junk 10; junk 11; junk 12]) None) 3].
  split; [constructor; [exact ex_good_till|constructor; [|constructor]]|].
  - intros l k x E J. injection E as <-. simpl in J. destruct J as [J|[J|[J|[]]]]; injection J as <- _; reflexivity.
  - split; [vm_compute; reflexivity|]. split; [vm_compute; lia|]. vm_compute. reflexivity.
Qed.

(** With no eligible node at the start nothing is asked for and no timer is set. *)
Theorem C37_nobody_eligible_refuted :
  let s := start N 2 (Some ex_till) (Some ex_sizes) [] (fun _ l => l) (init N ex_p4) in
  s_working N s = true /\ s_log N s = [] /\ size (p_base (s_led N s)) < 8.
Proof. split; [reflexivity|]. split; [reflexivity|]. vm_compute. lia. Qed.

(** A node that answers honestly is blacklisted if another one had sent wrong transactions
    for some of the same numbers before: the two replies are mixed, and the mixture does
    not fit the honest node's proof. *)
Theorem C50_honest_refuted : exists r0, canonical N r0 /\
  Catchup_Spec.honest toyH N ser1 exT 1 exL ex_till (ex_rep [5; 6; 7; 8]) 5 4 /\
  In (LBlack N 2) (s_log N (ex_run [ex_start; ORep N r0 3; ORep N (ex_rep [5; 6; 7; 8]) 2])).
Proof.
  exists (mkRep N 1 (Some [junk 7; junk 8; junk 9; junk 10]) None). split; [|split].
  - intros l k x E J. injection E as <-. simpl in J. destruct J as [J|[J|[J|[J|[]]]]]; injection J as <- _; reflexivity.
  - apply ex_honest; try lia; try discriminate; [apply Permutation_refl|reflexivity| |].
    + eexists. split; vm_compute; reflexivity.
    + intros k [<-|[<-|[<-|[<-|[]]]]]; reflexivity.
  - vm_compute. auto 10.
Qed.

(** A reply with a transaction of an unknown type makes the handler raise. *)
Theorem C38_unknown_type_raises_refuted : exists r, canonical N r /\
  s_log N (ex_run [ex_start; ORep N r 3]) =
    s_log N (ex_run [ex_start]) ++ [LRaise N LogicError].
Proof.
  exists (mkRep N 1 (Some [(at_ 5, mkTxn 99%N (Some 5))]) None). split.
  - intros l k x E J. injection E as <-. simpl in J. destruct J as [J|[]]; injection J as <- _; reflexivity.
  - vm_compute. reflexivity.
Qed.

(** A wrong reply right after the ledger's end. *)
Example C50_bad_reply_example :
  let r := mkRep N 1 (Some [(at_ 5, tx 5); (at_ 6, mkTxn 66%N (Some 6))]) (ex_proof 6) in
  ranged N r 5 2 /\ s_log N (ex_run [ex_start; ORep N r 3]) = s_log N (ex_run [ex_start]) ++ [LBlack N 3].
Proof.
  split; [|vm_compute; reflexivity]. exists [(at_ 5, tx 5); (at_ 6, mkTxn 66%N (Some 6))]. split; [reflexivity|].
  split; [intros k x [J|[J|[]]]; injection J as <- _; reflexivity|]. split; [lia|apply Permutation_refl].
Qed.

Print Assumptions C38_only_agreed_partial.
Print Assumptions C38_complete_partial.
Print Assumptions C38_honest_completes.
Print Assumptions C38_honest_progress.
Print Assumptions C37_start.
Print Assumptions C37_replied.
Print Assumptions C37_awaited_start.
Print Assumptions C37_awaited_timer.
Print Assumptions C37_timer.
Print Assumptions C50_only_senders.
Print Assumptions C50_bad_reply.
Print Assumptions C38_unusual_key_refuted.
Print Assumptions C37_stall_refuted.
Print Assumptions C37_timer_raises_refuted.
Print Assumptions C50_honest_refuted.
