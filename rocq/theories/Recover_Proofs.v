(** Lemmas about the order of writes. *)
From Coq Require Import List Arith Bool Lia.
From Verif Require Import Base Dict Recover_Model Recover_Spec.
Import ListNotations.

Section Proofs.
  Variables txn St : Type.
  Variable up : nat -> St -> txn -> St.
  Variable blank : St.
  Variable is_blank : St -> bool.
  Hypothesis is_blank_ok : forall s, is_blank s = true <-> s = blank.
  Variable lids : list nat.
  Hypothesis lids_nodup : NoDup lids.
  Variable batches : list (nat * list txn).
  Hypothesis batches_lids : forall b, In b batches -> In (fst b) lids.
  Variable gen : nat -> list txn.
  Notation write := (write txn St).
  Notation disk := (disk txn St).
  Notation state_of := (state_of txn St up blank).
  Notation agreed := (agreed txn batches gen).
  Notation agreed_audit := (agreed_audit txn lids batches gen).
  Notation jstep := (jstep txn St up is_blank lids batches gen).
  Notation jrun := (jrun txn St up is_blank lids batches gen).
  Notation job_writes := (job_writes txn St up is_blank lids batches gen).

  (** what a list of writes does to one ledger, one state, the audit ledger and the index *)
  Fixpoint txns_of (lid : nat) (ws : list write) : list txn :=
    match ws with [] => [] | WTxn l t :: r => if l =? lid then t :: txns_of lid r else txns_of lid r | _ :: r => txns_of lid r end.
  Fixpoint state_after (lid : nat) (s : St) (ws : list write) : St :=
    match ws with [] => s | WState l s' :: r => state_after lid (if l =? lid then s' else s) r | _ :: r => state_after lid s r end.
  Fixpoint audits_of (ws : list write) : list (dict nat) :=
    match ws with [] => [] | WAudit a :: r => a :: audits_of r | _ :: r => audits_of r end.
  Fixpoint index_of (ws : list write) : list (nat * nat) :=
    match ws with [] => [] | WIndex l :: r => l ++ index_of r | _ :: r => index_of r end.

  Lemma performs_led : forall ws d lid, d_led (performs d ws) lid = d_led d lid ++ txns_of lid ws.
  Proof.
    induction ws as [|w ws IH]; intros d lid.
    - cbn. rewrite app_nil_r. reflexivity.
    - unfold performs in *. cbn [fold_left]. rewrite IH. destruct w; cbn [perform d_led txns_of]; try reflexivity.
      unfold put. rewrite (Nat.eqb_sym lid lid0). destruct (lid0 =? lid) eqn:E; [|reflexivity].
      apply Nat.eqb_eq in E. subst lid0. rewrite <- app_assoc. reflexivity.
  Qed.
  Lemma performs_st : forall ws d lid, d_st (performs d ws) lid = state_after lid (d_st d lid) ws.
  Proof.
    induction ws as [|w ws IH]; intros d lid; [reflexivity|].
    unfold performs in *. cbn [fold_left]. rewrite IH. destruct w; cbn [perform d_st state_after]; try reflexivity.
    unfold put. rewrite (Nat.eqb_sym lid lid0). reflexivity.
  Qed.
  Lemma performs_audit : forall ws d, d_audit (performs d ws) = d_audit d ++ audits_of ws.
  Proof.
    induction ws as [|w ws IH]; intros d.
    - cbn. rewrite app_nil_r. reflexivity.
    - unfold performs in *. cbn [fold_left]. rewrite IH. destruct w; cbn [perform d_audit audits_of]; try reflexivity.
      rewrite <- app_assoc. reflexivity.
  Qed.
  Lemma performs_index : forall ws d, d_index (performs d ws) = d_index d ++ index_of ws.
  Proof.
    induction ws as [|w ws IH]; intros d.
    - cbn. rewrite app_nil_r. reflexivity.
    - unfold performs in *. cbn [fold_left]. rewrite IH. destruct w; cbn [perform d_index index_of]; try reflexivity.
      rewrite <- app_assoc. reflexivity.
  Qed.

  Lemma txns_app : forall lid a b, txns_of lid (a ++ b) = txns_of lid a ++ txns_of lid b.
  Proof. induction a as [|w a IH]; intros b; [reflexivity|]. destruct w; cbn [app txns_of]; try apply IH. destruct (_ =? _); cbn; rewrite IH; reflexivity. Qed.
  Lemma state_app : forall lid a b s, state_after lid s (a ++ b) = state_after lid (state_after lid s a) b.
  Proof. induction a as [|w a IH]; intros b s; [reflexivity|]. destruct w; cbn [app state_after]; apply IH. Qed.
  Lemma audits_app : forall a b, audits_of (a ++ b) = audits_of a ++ audits_of b.
  Proof. induction a as [|w a IH]; intros b; [reflexivity|]. destruct w; cbn [app audits_of]; try apply IH. rewrite IH. reflexivity. Qed.
  Lemma index_app : forall a b, index_of (a ++ b) = index_of a ++ index_of b.
  Proof. induction a as [|w a IH]; intros b; [reflexivity|]. destruct w; cbn [app index_of]; try apply IH. rewrite IH, app_assoc. reflexivity. Qed.

  (** writes that do not concern a ledger *)
  Definition off (lid : nat) (ws : list write) : Prop :=
    forall w, In w ws -> match w with WTxn l _ | WState l _ => l <> lid | _ => True end.
  Lemma off_txns : forall lid ws, off lid ws -> txns_of lid ws = [].
  Proof.
    induction ws as [|w ws IH]; intros O; [reflexivity|]. pose proof (O w (or_introl eq_refl)) as H.
    assert (O' : off lid ws) by (intros x I; apply O; right; exact I).
    destruct w; cbn [txns_of]; try exact (IH O'). apply Nat.eqb_neq in H. rewrite H. exact (IH O').
  Qed.
  Lemma off_state : forall lid ws s, off lid ws -> state_after lid s ws = s.
  Proof.
    induction ws as [|w ws IH]; intros s O; [reflexivity|]. pose proof (O w (or_introl eq_refl)) as H.
    assert (O' : off lid ws) by (intros x I; apply O; right; exact I).
    destruct w; cbn [state_after]; try exact (IH s O'). apply Nat.eqb_neq in H. rewrite H. exact (IH s O').
  Qed.
  Lemma flat_off : forall (f : nat -> list write) ls lid, (forall l, l <> lid -> off lid (f l)) -> ~ In lid ls -> off lid (flat_map f ls).
  Proof.
    intros f ls lid H NI w I. apply in_flat_map in I as (l & Il & Iw). assert (NE : l <> lid) by (intros ->; exact (NI Il)).
    exact (H l NE w Iw).
  Qed.
  Lemma flat_split : forall (f : nat -> list write) ls lid, NoDup ls -> In lid ls -> (forall l, l <> lid -> off lid (f l)) ->
    exists a b, flat_map f ls = a ++ f lid ++ b /\ off lid a /\ off lid b.
  Proof.
    intros f ls lid ND I H. apply in_split in I as (l1 & l2 & ->). rewrite flat_map_app. cbn [flat_map].
    exists (flat_map f l1), (flat_map f l2). apply NoDup_remove_2 in ND.
    assert (N1 : ~ In lid l1) by (intros X; apply ND, in_or_app; left; exact X).
    assert (N2 : ~ In lid l2) by (intros X; apply ND, in_or_app; right; exact X).
    split; [reflexivity|]. split; apply flat_off; assumption.
  Qed.

  (** every state written is that of the ledger at that moment *)
  Fixpoint good (lid : nat) (led : list txn) (ws : list write) : Prop :=
    match ws with
    | [] => True
    | WTxn l t :: r => good lid (if l =? lid then led ++ [t] else led) r
    | WState l s :: r => (l = lid -> s = state_of lid led) /\ good lid led r
    | _ :: r => good lid led r
    end.
  Lemma good_app : forall lid a led b, good lid led (a ++ b) <-> good lid led a /\ good lid (led ++ txns_of lid a) b.
  Proof.
    induction a as [|w a IH]; intros led b.
    - cbn. rewrite app_nil_r. tauto.
    - destruct w; cbn [app good txns_of]; rewrite ?IH; try tauto.
      destruct (lid0 =? lid); [|tauto]. rewrite <- app_assoc. tauto.
  Qed.
  Lemma good_firstn : forall lid n led ws, good lid led ws -> good lid led (firstn n ws).
  Proof. intros lid n led ws G. rewrite <- (firstn_skipn n ws) in G. apply good_app in G as [G _]. exact G. Qed.
  Lemma off_good : forall lid ws led, off lid ws -> good lid led ws.
  Proof.
    induction ws as [|w ws IH]; intros led O; [exact Logic.I|]. pose proof (O w (or_introl eq_refl)) as H.
    assert (O' : off lid ws) by (intros x Ix; apply O; right; exact Ix).
    destruct w; cbn [good]; try exact (IH _ O'). split; [congruence | exact (IH _ O')].
  Qed.

  Definition pend1 (lid : nat) (b : bool) (w : write) : bool :=
    match w with WTxn l _ => if l =? lid then true else b | WState l _ => if l =? lid then false else b | _ => b end.
  Lemma good_state : forall lid ws led b s, good lid led ws -> fold_left (pend1 lid) ws b = false ->
    (b = false -> s = state_of lid led) -> state_after lid s ws = state_of lid (led ++ txns_of lid ws).
  Proof.
    induction ws as [|w ws IH]; intros led b s G P E.
    - cbn in *. rewrite app_nil_r. exact (E P).
    - destruct w; cbn [good fold_left pend1 state_after txns_of] in *.
      + destruct (lid0 =? lid).
        * rewrite (IH (led ++ [t]) true s G P ltac:(discriminate)). rewrite <- app_assoc. reflexivity.
        * exact (IH led b s G P E).
      + destruct G as [G1 G]. destruct (lid0 =? lid) eqn:EL.
        * apply Nat.eqb_eq in EL. exact (IH led false _ G P (fun _ => G1 EL)).
        * exact (IH led b s G P E).
      + exact (IH led b s G P E).
      + exact (IH led b s G P E).
  Qed.
  Lemma pending_pend1 : forall lid ws, pending txn St lid ws = fold_left (pend1 lid) ws false.
  Proof. reflexivity. Qed.
  Lemma off_pend : forall lid ws b, off lid ws -> fold_left (pend1 lid) ws b = b.
  Proof.
    induction ws as [|w ws IH]; intros b O; [reflexivity|]. pose proof (O w (or_introl eq_refl)) as H.
    assert (O' : off lid ws) by (intros x I; apply O; right; exact I).
    cbn [fold_left]. destruct w; cbn [pend1]; try exact (IH _ O'); apply Nat.eqb_neq in H; rewrite H; exact (IH _ O').
  Qed.

  (** *** the ledgers of the pool *)
  Lemma agreed_S : forall k lid bl ts, nth_error batches k = Some (bl, ts) ->
    agreed (S k) lid = agreed k lid ++ (if bl =? lid then ts else []).
  Proof.
    intros k lid bl ts N. unfold Recover_Model.agreed.
    assert (H : forall l i, nth_error l i = Some (bl, ts) -> firstn (S i) l = firstn i l ++ [(bl, ts)]).
    { induction l as [|a l IH]; intros [|i] X; try discriminate X; cbn in *; [injection X as ->; reflexivity|].
      rewrite <- (IH i X). reflexivity. }
    rewrite (H _ _ N), flat_map_app, <- app_assoc. cbn [flat_map fst snd]. rewrite app_nil_r. reflexivity.
  Qed.
  Definition all (lid : nat) : list txn := agreed (length batches) lid.
  Lemma agreed_prefix : forall k lid, exists r, all lid = agreed k lid ++ r.
  Proof.
    intros k lid. unfold all, Recover_Model.agreed. rewrite firstn_all.
    exists (flat_map (fun b => if fst b =? lid then snd b else []) (skipn k batches)).
    rewrite <- app_assoc, <- flat_map_app, firstn_skipn. reflexivity.
  Qed.
  Lemma prefix_firstn : forall {A} (a l r : list A), l = a ++ r -> a = firstn (length a) l.
  Proof. intros A a l r ->. rewrite firstn_app, Nat.sub_diag, firstn_all. cbn. rewrite app_nil_r. reflexivity. Qed.

  Lemma audit_entry : forall k, agreed_audit (S k) = agreed_audit k ++ [map (fun l => (l, length (agreed (S k) l))) lids].
  Proof. intros k. unfold Recover_Model.agreed_audit. rewrite seq_S, map_app. reflexivity. Qed.
  Lemma audit_length : forall k, length (agreed_audit k) = k.
  Proof. intros k. unfold Recover_Model.agreed_audit. rewrite map_length, seq_length. reflexivity. Qed.
  Lemma audit_firstn : forall k m, k <= m -> firstn k (agreed_audit m) = agreed_audit k.
  Proof.
    intros k m L. induction m as [|m IH].
    - replace k with 0 by lia. reflexivity.
    - destruct (Nat.eq_dec k (S m)) as [->|N].
      + rewrite <- (audit_length (S m)) at 1. apply firstn_all.
      + rewrite audit_entry, firstn_app, audit_length. replace (k - m) with 0 by lia. cbn [firstn]. rewrite app_nil_r. apply IH. lia.
  Qed.
  Lemma get_map : forall (f : nat -> nat) ls lid, In lid ls -> get lid (map (fun l => (l, f l)) ls) = Some (f lid).
  Proof.
    induction ls as [|a ls IH]; intros lid I; [destruct I|]. cbn [map get].
    destruct (lid =? a) eqn:E.
    - apply Nat.eqb_eq in E. subst a. reflexivity.
    - destruct I as [->|I]; [rewrite Nat.eqb_refl in E; discriminate | exact (IH lid I)].
  Qed.
  Lemma target_of : forall m lid, In lid lids -> 0 < m -> get lid (last (agreed_audit m) []) = Some (length (agreed m lid)).
  Proof.
    intros m lid I P. destruct m as [|m]; [lia|]. rewrite audit_entry, last_last. exact (get_map (fun l => length (agreed (S m) l)) lids lid I).
  Qed.

  (** *** the three jobs, one ledger at a time *)
  Lemma map_txns : forall lid l ts, txns_of lid (map (WTxn l) ts) = if l =? lid then ts else [].
  Proof. induction ts as [|t ts IH]; cbn [map txns_of]; [destruct (_ =? _); reflexivity|]. rewrite IH. destruct (l =? lid); reflexivity. Qed.
  Lemma map_off : forall lid l ts, l <> lid -> off lid (map (WTxn l) ts).
  Proof. intros lid l ts N w I. apply in_map_iff in I as (t & <- & _). exact N. Qed.
  Lemma map_good : forall lid l ts led, good lid led (map (WTxn l) ts).
  Proof. induction ts as [|t ts IH]; intros led; cbn [map good]; [exact Logic.I | apply IH]. Qed.
  Lemma audit_map_off : forall lid a, off lid (map WAudit a).
  Proof. intros lid a w I. apply in_map_iff in I as (x & <- & _). exact Logic.I. Qed.

  Lemma add_txns : forall lid ts pos s, txns_of lid (add_writes txn St up lid pos s ts) = ts.
  Proof. induction ts as [|t ts IH]; intros pos s; cbn [add_writes txns_of]; [reflexivity|]. rewrite Nat.eqb_refl, IH. reflexivity. Qed.
  Lemma add_off : forall lid l ts pos s, l <> lid -> off lid (add_writes txn St up l pos s ts).
  Proof.
    induction ts as [|t ts IH]; intros pos s N w I; [destruct I|]. cbn [add_writes] in I.
    destruct I as [<-|[<-|[<-|I]]]; try exact N; [exact Logic.I | exact (IH _ _ N w I)].
  Qed.
  Lemma add_good : forall lid ts pos led, good lid led (add_writes txn St up lid pos (state_of lid led) ts).
  Proof.
    induction ts as [|t ts IH]; intros pos led; cbn [add_writes good]; [exact Logic.I|]. rewrite Nat.eqb_refl.
    assert (E : up lid (state_of lid led) t = state_of lid (led ++ [t])) by (unfold Recover_Spec.state_of; rewrite fold_left_app; reflexivity).
    split; [intros _; exact E|]. rewrite E. apply IH.
  Qed.
  Lemma add_pend : forall lid ts pos s, fold_left (pend1 lid) (add_writes txn St up lid pos s ts) false = false.
  Proof. induction ts as [|t ts IH]; intros pos s; [reflexivity|]. cbn [add_writes fold_left pend1]. rewrite Nat.eqb_refl. apply IH. Qed.
  Lemma add_audits : forall lid ts pos s, audits_of (add_writes txn St up lid pos s ts) = [].
  Proof. induction ts as [|t ts IH]; intros pos s; [reflexivity | cbn [add_writes audits_of]; apply IH]. Qed.
  Lemma ledger_off : forall d tg o lid l, l <> lid -> off lid (ledger_writes txn St up d tg o l).
  Proof. intros d [n|] o lid l N; [exact (add_off lid l _ _ _ N) | intros w []]. Qed.
  Lemma flat_audits : forall (f : nat -> list write) ls, (forall l, audits_of (f l) = []) -> audits_of (flat_map f ls) = [].
  Proof. intros f ls H. induction ls as [|l ls IH]; [reflexivity|]. cbn [flat_map]. rewrite audits_app, H, IH. reflexivity. Qed.
  Lemma ledger_audits : forall d tg o l, audits_of (ledger_writes txn St up d tg o l) = [].
  Proof. intros d [n|] o l; [apply add_audits | reflexivity]. Qed.
  Lemma map_audits : forall a, audits_of (map WAudit a) = a.
  Proof. induction a as [|x a IH]; [reflexivity | cbn [map audits_of]; rewrite IH; reflexivity]. Qed.
  Lemma map_txn_audits : forall l ts, audits_of (map (WTxn l) ts) = [].
  Proof. induction ts as [|x a IH]; [reflexivity | exact IH]. Qed.

  (** the part of a catch-up that concerns one ledger *)
  Lemma catchup_split : forall d m lid, In lid lids ->
    exists a b, catchup_writes txn St up lids d (agreed_audit m) (agreed m) =
      a ++ ledger_writes txn St up d (get lid (last (agreed_audit m) [])) (agreed m lid) lid ++ b /\ off lid a /\ off lid b.
  Proof.
    intros d m lid I. unfold catchup_writes.
    destruct (flat_split (fun l => ledger_writes txn St up d (get l (last (agreed_audit m) [])) (agreed m l) l) lids lid lids_nodup I
                (fun l N => ledger_off d _ _ lid l N)) as (a & b & E & Oa & Ob).
    exists (map WAudit (skipn (length (d_audit d)) (agreed_audit m)) ++ a), b. rewrite E, app_assoc.
    split; [rewrite <- !app_assoc; reflexivity|]. split; [|exact Ob].
    intros w Iw. apply in_app_or in Iw as [Iw|Iw]; [exact (audit_map_off lid _ w Iw) | exact (Oa w Iw)].
  Qed.

  Lemma restore_off : forall lid l ts s, l <> lid -> off lid (restore_writes txn St up l s ts).
  Proof. induction ts as [|t ts IH]; intros s N w I; [destruct I|]. destruct I as [<-|I]; [exact N | exact (IH _ N w I)]. Qed.
  Lemma restore_state : forall lid ts s x, state_after lid x (restore_writes txn St up lid s ts) = match ts with [] => x | _ => fold_left (up lid) ts s end.
  Proof.
    induction ts as [|t ts IH]; intros s x; [reflexivity|]. cbn [restore_writes state_after]. rewrite Nat.eqb_refl, IH. cbn [fold_left].
    destruct ts; reflexivity.
  Qed.
  Lemma restore_txns : forall lid l ts s, txns_of lid (restore_writes txn St up l s ts) = [].
  Proof. induction ts as [|t ts IH]; intros s; [reflexivity | cbn [restore_writes txns_of]; apply IH]. Qed.
  Lemma restore_audits : forall l ts s, audits_of (restore_writes txn St up l s ts) = [].
  Proof. induction ts as [|t ts IH]; intros s; [reflexivity | cbn [restore_writes audits_of]; apply IH]. Qed.
  Lemma start_off : forall d lid l, l <> lid -> off lid (if is_blank (d_st d l) then restore_writes txn St up l (d_st d l) (d_led d l) else []).
  Proof. intros d lid l N. destruct (is_blank _); [apply restore_off; exact N | intros w []]. Qed.
  Lemma flat_txns_nil : forall (f : nat -> list write) ls lid, (forall l, txns_of lid (f l) = []) -> txns_of lid (flat_map f ls) = [].
  Proof. intros f ls lid H. induction ls as [|l ls IH]; [reflexivity|]. cbn [flat_map]. rewrite txns_app, H, IH. reflexivity. Qed.
  Lemma start_txns : forall d lid, txns_of lid (start_writes txn St up is_blank lids d) = [].
  Proof. intros d lid. apply flat_txns_nil. intros l. destruct (is_blank _); [apply restore_txns | reflexivity]. Qed.
  Lemma start_audits : forall d, audits_of (start_writes txn St up is_blank lids d) = [].
  Proof. intros d. apply flat_audits. intros l. destruct (is_blank _); [apply restore_audits | reflexivity]. Qed.
  (** a blank state is created from its ledger, any other is left as it is *)
  Lemma start_state : forall d lid, In lid lids ->
    d_st (performs d (start_writes txn St up is_blank lids d)) lid = if is_blank (d_st d lid) then state_of lid (d_led d lid) else d_st d lid.
  Proof.
    intros d lid I. rewrite performs_st. unfold start_writes.
    destruct (flat_split (fun l => if is_blank (d_st d l) then restore_writes txn St up l (d_st d l) (d_led d l) else []) lids lid lids_nodup I
                (fun l N => start_off d lid l N)) as (a & b & E & Oa & Ob).
    rewrite E, !state_app, (off_state lid a _ Oa), (off_state lid b _ Ob).
    destruct (is_blank (d_st d lid)) eqn:B; [|reflexivity]. rewrite restore_state. apply is_blank_ok in B. rewrite B.
    unfold Recover_Spec.state_of. destruct (d_led d lid); reflexivity.
  Qed.

  (** *** The invariant of careful histories: the audit ledger and every ledger hold a beginning of
      what the pool ordered, and every state is that of its ledger. *)
  Record inv (d : disk) (started : bool) : Prop := mkInv {
    i_audit : exists k, k <= length batches /\ d_audit d = agreed_audit k;
    i_led : forall lid, In lid lids -> exists r, all lid = d_led d lid ++ r;
    i_st : forall lid, In lid lids -> d_st d lid = state_of lid (d_led d lid) \/ started = false /\ d_st d lid = blank
  }.

  Lemma inv_init : inv (genesis_disk txn St blank gen) false.
  Proof.
    constructor.
    - exists 0. split; [lia | reflexivity].
    - intros lid _. destruct (agreed_prefix 0 lid) as (r & E). exists r. rewrite E. unfold Recover_Model.agreed. cbn. rewrite app_nil_r. reflexivity.
    - intros lid _. right. split; reflexivity.
  Qed.

  (** the facts about the writes of a job that the invariant needs *)
  Record fits (d : disk) (ws : list write) : Prop := mkFits {
    f_audit : exists k, k <= length batches /\ d_audit d ++ audits_of ws = agreed_audit k;
    f_led : forall lid, In lid lids -> exists r, all lid = (d_led d lid ++ txns_of lid ws) ++ r;
    f_good : forall lid, In lid lids -> good lid (d_led d lid) ws
  }.
  Lemma fits_firstn : forall d ws n, fits d ws -> fits d (firstn n ws).
  Proof.
    intros d ws n [(k & L & A) FL FG]. constructor.
    - rewrite <- (firstn_skipn n ws), audits_app, app_assoc in A.
      exists (length (d_audit d ++ audits_of (firstn n ws))).
      assert (L' : length (d_audit d ++ audits_of (firstn n ws)) <= k) by (pose proof (f_equal (@length _) A) as X; rewrite app_length, audit_length in X; lia).
      split; [lia|]. rewrite <- (audit_firstn _ k L'), <- A. apply (prefix_firstn _ _ _ eq_refl).
    - intros lid I. destruct (FL lid I) as (r & E). rewrite <- (firstn_skipn n ws), txns_app in E.
      exists (txns_of lid (skipn n ws) ++ r). rewrite E, <- !app_assoc. reflexivity.
    - intros lid I. apply good_firstn. exact (FG lid I).
  Qed.

  Lemma commit_fits : forall d lid ts k, d_audit d = agreed_audit k -> nth_error batches k = Some (lid, ts) ->
    (forall l, In l lids -> d_led d l = agreed k l) -> (forall l, In l lids -> d_st d l = state_of l (d_led d l)) ->
    fits d (commit_writes txn St up lids d lid ts).
  Proof.
    intros d lid ts k EA N EL ES.
    assert (LK : k < length batches) by (apply nth_error_Some; rewrite N; discriminate).
    assert (IL : In lid lids) by exact (batches_lids _ (nth_error_In _ _ N)).
    constructor.
    - exists (S k). split; [exact LK|]. unfold commit_writes. rewrite audits_app, map_txn_audits. cbn [app audits_of].
      rewrite EA, audit_entry. do 2 f_equal. apply map_ext_in. intros l I. rewrite (agreed_S k l lid ts N), (EL l I), app_length, (Nat.eqb_sym lid l).
      destruct (l =? lid); reflexivity.
    - intros l I. destruct (agreed_prefix (S k) l) as (r & E). exists r. rewrite E, (agreed_S k l lid ts N), (EL l I).
      unfold commit_writes. rewrite txns_app, map_txns. cbn [txns_of]. rewrite app_nil_r. reflexivity.
    - intros l I. unfold commit_writes. apply good_app. split; [apply map_good|]. cbn [good]. split; [|exact Logic.I].
      intros ->. rewrite map_txns, Nat.eqb_refl, (ES l I). unfold Recover_Spec.state_of. rewrite fold_left_app. reflexivity.
  Qed.

  Lemma catchup_txns : forall d m lid, In lid lids -> 0 < m ->
    txns_of lid (catchup_writes txn St up lids d (agreed_audit m) (agreed m)) = skipn (length (d_led d lid)) (agreed m lid).
  Proof.
    intros d m lid I P. destruct (catchup_split d m lid I) as (a & b & E & Oa & Ob).
    rewrite E, !txns_app, (off_txns lid a Oa), (off_txns lid b Ob), (target_of m lid I P), app_nil_r. cbn [app ledger_writes].
    rewrite add_txns, firstn_all. reflexivity.
  Qed.
  Lemma catchup_audits : forall d m, audits_of (catchup_writes txn St up lids d (agreed_audit m) (agreed m)) = skipn (length (d_audit d)) (agreed_audit m).
  Proof. intros d m. unfold catchup_writes. rewrite audits_app, map_audits, flat_audits, app_nil_r; [reflexivity | intros l; apply ledger_audits]. Qed.
  Lemma catchup_0 : forall d lid, In lid lids -> txns_of lid (catchup_writes txn St up lids d (agreed_audit 0) (agreed 0)) = [].
  Proof.
    intros d lid I. destruct (catchup_split d 0 lid I) as (a & b & E & Oa & Ob).
    rewrite E, !txns_app, (off_txns lid a Oa), (off_txns lid b Ob). reflexivity.
  Qed.
  Lemma prefixes : forall {A} (a b r r' : list A), a ++ r = b ++ r' -> length a <= length b -> exists x, b = a ++ x.
  Proof.
    intros A a b r r' E L. exists (skipn (length a) b).
    assert (F : firstn (length a) (a ++ r) = firstn (length a) (b ++ r')) by (rewrite E; reflexivity).
    rewrite firstn_app, Nat.sub_diag, firstn_all, firstn_app in F. replace (length a - length b) with 0 in F by lia.
    cbn [firstn] in F. rewrite !app_nil_r in F. transitivity (firstn (length a) b ++ skipn (length a) b); [rewrite firstn_skipn; reflexivity|].
    rewrite <- F. reflexivity.
  Qed.
  Lemma catchup_led : forall (l : list txn) m lid r, all lid = l ++ r ->
    l ++ skipn (length l) (agreed m lid) = if length l <=? length (agreed m lid) then agreed m lid else l.
  Proof.
    intros l m lid r E. destruct (agreed_prefix m lid) as (r' & E'). destruct (Nat.leb_spec (length l) (length (agreed m lid))) as [L|L].
    - destruct (prefixes l (agreed m lid) r r' ltac:(rewrite <- E, <- E'; reflexivity) L) as (x & ->).
      rewrite skipn_app, skipn_all, Nat.sub_diag. reflexivity.
    - rewrite skipn_all2, app_nil_r by lia. reflexivity.
  Qed.
  Lemma catchup_fits : forall d m, (exists k, k <= m /\ d_audit d = agreed_audit k) -> m <= length batches ->
    (forall l, In l lids -> exists r, all l = d_led d l ++ r) -> (forall l, In l lids -> d_st d l = state_of l (d_led d l)) ->
    fits d (catchup_writes txn St up lids d (agreed_audit m) (agreed m)).
  Proof.
    intros d m (k & LK & EA) LM EL ES. constructor.
    - exists m. split; [exact LM|]. rewrite catchup_audits, EA, audit_length. rewrite <- (audit_firstn k m LK) at 1. apply firstn_skipn.
    - intros lid I. destruct (EL lid I) as (r & E). destruct m as [|m'] eqn:EM.
      + exists r. rewrite (catchup_0 d lid I), app_nil_r. exact E.
      + rewrite (catchup_txns d (S m') lid I (Nat.lt_0_succ _)), (catchup_led _ (S m') lid r E).
        destruct (_ <=? _); [exact (agreed_prefix (S m') lid) | exists r; exact E].
    - intros lid I. destruct (catchup_split d m lid I) as (a & b & E & Oa & Ob). rewrite E.
      apply good_app. split; [exact (off_good lid a _ Oa)|]. rewrite (off_txns lid a Oa), app_nil_r.
      apply good_app. split; [|exact (off_good lid b _ Ob)].
      unfold ledger_writes. destruct (get lid (last (agreed_audit m) [])) as [n|]; [|exact Logic.I]. rewrite (ES lid I). apply add_good.
  Qed.

  Lemma fits_inv : forall d ws b, fits d ws -> (forall lid, In lid lids -> d_st d lid = state_of lid (d_led d lid)) ->
    (forall lid, In lid lids -> pending txn St lid ws = false) -> inv (performs d ws) b.
  Proof.
    intros d ws b [FA FL FG] ES P. constructor.
    - rewrite performs_audit. exact FA.
    - intros lid I. rewrite performs_led. exact (FL lid I).
    - intros lid I. left. rewrite performs_st, performs_led.
      exact (good_state lid ws (d_led d lid) false (d_st d lid) (FG lid I) (P lid I) (fun _ => ES lid I)).
  Qed.
  Lemma inv_weaken : forall d b, inv d true -> inv d b.
  Proof. intros d b [A L S0]. constructor; [exact A | exact L|]. intros lid I. destruct (S0 lid I) as [E|[X _]]; [left; exact E | discriminate X]. Qed.

  Lemma start_inv : forall d b, inv d b -> inv (jstep d (JStart, None)) true.
  Proof.
    intros d b [A L S0]. unfold Recover_Model.jstep. cbn [fst snd Recover_Model.job_writes]. constructor.
    - rewrite performs_audit, start_audits, app_nil_r. exact A.
    - intros lid I. rewrite performs_led, start_txns, app_nil_r. exact (L lid I).
    - intros lid I. left. rewrite (start_state d lid I), performs_led, start_txns, app_nil_r.
      destruct (S0 lid I) as [E|[_ E]].
      + destruct (is_blank _); [reflexivity | exact E].
      + rewrite E. rewrite (proj2 (is_blank_ok blank) eq_refl). reflexivity.
  Qed.

  Lemma commit_pend : forall d lid l ts, pending txn St l (commit_writes txn St up lids d lid ts) = false.
  Proof.
    intros d lid l ts. rewrite pending_pend1. unfold commit_writes. rewrite fold_left_app. cbn [fold_left pend1].
    destruct (lid =? l) eqn:E; [reflexivity|]. apply Nat.eqb_neq in E. apply (off_pend l (map (WTxn lid) ts) false). apply map_off. exact E.
  Qed.
  Lemma catchup_pend : forall d m lid, In lid lids -> pending txn St lid (catchup_writes txn St up lids d (agreed_audit m) (agreed m)) = false.
  Proof.
    intros d m lid I. rewrite pending_pend1. destruct (catchup_split d m lid I) as (a & b & E & Oa & Ob).
    rewrite E, !fold_left_app, (off_pend lid a false Oa). rewrite (off_pend lid b _ Ob).
    unfold ledger_writes. destruct (get lid (last (agreed_audit m) [])) as [n|]; [apply add_pend | reflexivity].
  Qed.

  Lemma job_fits : forall d b j c js, inv d b -> legal txn St up is_blank lids batches gen d b ((j, c) :: js) -> j <> JStart ->
    fits d (job_writes d j) /\ (forall lid, In lid lids -> d_st d lid = state_of lid (d_led d lid)) /\
    (forall lid, In lid lids -> pending txn St lid (job_writes d j) = false).
  Proof.
    intros d b j c js [(k & LK & EA) L S0] LG NJ. inversion LG; subst; [congruence| |].
    - assert (ES : forall lid, In lid lids -> d_st d lid = state_of lid (d_led d lid)) by (intros lid I; destruct (S0 lid I) as [E|[X _]]; [exact E | discriminate X]).
      cbn [Recover_Model.job_writes]. destruct (nth_error batches (length (d_audit d))) as [[bl ts]|] eqn:N;
        [|apply nth_error_None in N; lia].
      split; [|split; [exact ES | intros lid _; apply commit_pend]].
      rewrite EA, audit_length in *. exact (commit_fits d bl ts k EA N ltac:(assumption) ES).
    - assert (ES : forall lid, In lid lids -> d_st d lid = state_of lid (d_led d lid)) by (intros lid I; destruct (S0 lid I) as [E|[X _]]; [exact E | discriminate X]).
      cbn [Recover_Model.job_writes]. split; [|split; [exact ES | intros lid I; apply catchup_pend; exact I]].
      rewrite EA, audit_length in *. apply catchup_fits; [exists k; split; [lia | exact EA] | lia | exact L | exact ES].
  Qed.

  Theorem careful_inv : forall js d b, inv d b -> legal txn St up is_blank lids batches gen d b js ->
    careful txn St up is_blank lids batches gen d js -> exists b', inv (jrun d js) b'.
  Proof.
    induction js as [|[j c] js IH]; intros d b I LG CF; [exists b; exact I|].
    cbn [careful] in CF. destruct CF as [C CF]. unfold Recover_Model.jrun. cbn [fold_left]. fold (jrun (jstep d (j, c)) js).
    assert (LN : legal txn St up is_blank lids batches gen (jstep d (j, c)) (match c with None => true | Some _ => false end) js)
      by (inversion LG; subst; assumption).
    refine (IH _ _ _ LN CF). destruct (match j with JStart => true | _ => false end) eqn:EJ.
    - destruct j; try discriminate EJ. destruct c as [n|]; [destruct C as [C _]; congruence|]. exact (start_inv d b I).
    - assert (NJ : j <> JStart) by (intros ->; discriminate EJ).
      destruct (job_fits d b j c js I LG NJ) as (F & ES & P). unfold Recover_Model.jstep. cbn [fst snd]. destruct c as [n|].
      + destruct C as [_ C]. exact (fits_inv d _ false (fits_firstn d _ n F) ES C).
      + exact (fits_inv d _ true F ES P).
  Qed.

  Lemma catchup_at : forall d m, inv d true -> length (d_audit d) <= m <= length batches -> 0 < m ->
    (forall lid, In lid lids -> length (d_led d lid) <= length (agreed m lid)) ->
    at_batch txn St up blank lids batches gen (jstep d (JCatchup m, None)) m.
  Proof.
    intros d m [(k & LK & EA) L S0] LM PM LL.
    assert (ES : forall lid, In lid lids -> d_st d lid = state_of lid (d_led d lid)) by (intros lid I; destruct (S0 lid I) as [E|[X _]]; [exact E | discriminate X]).
    rewrite EA, audit_length in LM.
    assert (F : fits d (catchup_writes txn St up lids d (agreed_audit m) (agreed m))) by (apply catchup_fits; [exists k; split; [lia | exact EA] | lia | exact L | exact ES]).
    unfold Recover_Model.jstep. cbn [fst snd Recover_Model.job_writes]. unfold at_batch. split.
    - rewrite performs_audit, catchup_audits, EA, audit_length. rewrite <- (audit_firstn k m ltac:(lia)) at 1. apply firstn_skipn.
    - intros lid I. assert (EL : d_led (performs d (catchup_writes txn St up lids d (agreed_audit m) (agreed m))) lid = agreed m lid).
      { rewrite performs_led, (catchup_txns d m lid I PM). destruct (L lid I) as (r & E). rewrite (catchup_led _ m lid r E).
        rewrite (proj2 (Nat.leb_le _ _) (LL lid I)). reflexivity. }
      split; [exact EL|].
      pose proof (fits_inv d _ true F ES (fun lid I => catchup_pend d m lid I)) as J. destruct (i_st _ _ J lid I) as [E|[X _]]; [|discriminate X].
      rewrite E, EL. reflexivity.
  Qed.

  (** *** The index *)
  Fixpoint igood (lid : nat) (n m : nat) (ws : list write) : Prop :=
    match ws with
    | [] => True
    | WTxn l _ :: r => igood lid n (if l =? lid then S m else m) r
    | WIndex l :: r => if existsb (fun e => fst e =? lid) l
                       then (forall i, n <= i < m -> In (lid, i) l) /\ igood lid m m r else igood lid n m r
    | _ :: r => igood lid n m r
    end.
  Definition pend2 (lid : nat) (b : bool) (w : write) : bool :=
    match w with WTxn l _ => if l =? lid then true else b | WIndex l => if existsb (fun e => fst e =? lid) l then false else b | _ => b end.
  Lemma igood_firstn : forall lid k ws n m, igood lid n m ws -> igood lid n m (firstn k ws).
  Proof.
    induction k as [|k IH]; intros [|w ws] n m G; try exact Logic.I. cbn [firstn]. destruct w; cbn [igood] in *; try (apply IH; exact G).
    destruct (existsb _ _); [|apply IH; exact G]. destruct G as [G1 G]. split; [exact G1 | apply IH; exact G].
  Qed.
  Lemma igood_index : forall lid ws n m b x, igood lid n m ws -> fold_left (pend2 lid) ws b = false -> (b = false -> n = m) ->
    x <= n -> n <= m -> forall i, n <= i < m + length (txns_of lid ws) -> In (lid, i) (index_of ws).
  Proof.
    induction ws as [|w ws IH]; intros n m b x G P B X NM i LI.
    - cbn in *. specialize (B P). lia.
    - destruct w; cbn [igood fold_left pend2 txns_of index_of] in *.
      + destruct (lid0 =? lid); cbn [length] in LI.
        * exact (IH n (S m) true n G P ltac:(discriminate) (le_n _) ltac:(lia) i ltac:(lia)).
        * exact (IH n m b n G P B (le_n _) NM i LI).
      + exact (IH n m b n G P B (le_n _) NM i LI).
      + exact (IH n m b n G P B (le_n _) NM i LI).
      + destruct (existsb _ l).
        * destruct G as [G1 G]. apply in_or_app. destruct (Nat.lt_ge_cases i m) as [L|L]; [left; exact (G1 i (conj (proj1 LI) L))|].
          right. exact (IH m m false m G P (fun _ => eq_refl) (le_n _) (le_n _) i ltac:(lia)).
        * apply in_or_app. right. exact (IH n m b n G P B (le_n _) NM i LI).
  Qed.
  (** writes that concern neither the ledger nor the index of it *)
  Definition ioff (lid : nat) (ws : list write) : Prop :=
    forall w, In w ws -> match w with WTxn l _ => l <> lid | WIndex l => existsb (fun e => fst e =? lid) l = false | _ => True end.
  Lemma ioff_good : forall lid ws r n m, ioff lid ws -> igood lid n m r -> igood lid n m (ws ++ r).
  Proof.
    induction ws as [|w ws IH]; intros r n m O G; [exact G|]. pose proof (O w (or_introl eq_refl)) as H.
    assert (O' : ioff lid ws) by (intros x I; apply O; right; exact I).
    destruct w; cbn [app igood]; try exact (IH r n m O' G).
    - apply Nat.eqb_neq in H. rewrite H. exact (IH r n m O' G).
    - rewrite H. exact (IH r n m O' G).
  Qed.
  Lemma ioff_pend : forall lid ws b, ioff lid ws -> fold_left (pend2 lid) ws b = b.
  Proof.
    induction ws as [|w ws IH]; intros b O; [reflexivity|]. pose proof (O w (or_introl eq_refl)) as H.
    assert (O' : ioff lid ws) by (intros x I; apply O; right; exact I).
    cbn [fold_left]. destruct w; cbn [pend2]; try exact (IH _ O').
    - apply Nat.eqb_neq in H; rewrite H; exact (IH _ O').
    - rewrite H. exact (IH _ O').
  Qed.
  Lemma add_ioff : forall lid l ts pos s, l <> lid -> ioff lid (add_writes txn St up l pos s ts).
  Proof.
    induction ts as [|t ts IH]; intros pos s N w I; [destruct I|]. cbn [add_writes] in I.
    destruct I as [<-|[<-|[<-|I]]]; [exact N | exact Logic.I | | exact (IH _ _ N w I)].
    cbn [existsb fst]. apply Nat.eqb_neq in N. rewrite N. reflexivity.
  Qed.
  Lemma add_igood : forall lid ts pos s r, (forall m, igood lid m m r) -> igood lid pos pos (add_writes txn St up lid pos s ts ++ r).
  Proof.
    induction ts as [|t ts IH]; intros pos s r H; [apply H|]. cbn [add_writes app igood existsb fst]. rewrite Nat.eqb_refl.
    cbn [orb]. split; [|apply IH; exact H]. intros i L. left. f_equal. lia.
  Qed.
  Lemma add_pend2 : forall lid ts pos s, fold_left (pend2 lid) (add_writes txn St up lid pos s ts) false = false.
  Proof. induction ts as [|t ts IH]; intros pos s; [reflexivity|]. cbn [add_writes fold_left pend2 existsb fst]. rewrite !Nat.eqb_refl. apply IH. Qed.
  Lemma flat_ioff : forall (f : nat -> list write) ls lid, (forall l, l <> lid -> ioff lid (f l)) -> ~ In lid ls -> ioff lid (flat_map f ls).
  Proof.
    intros f ls lid H NI w I. apply in_flat_map in I as (l & Il & Iw). assert (NE : l <> lid) by (intros ->; exact (NI Il)).
    exact (H l NE w Iw).
  Qed.
  Lemma ledger_ioff : forall d tg o lid l, l <> lid -> ioff lid (ledger_writes txn St up d tg o l).
  Proof. intros d [n|] o lid l N; [exact (add_ioff lid l _ _ _ N) | intros w []]. Qed.

  (** what the index needs of the writes of a job *)
  Definition ifits (d : disk) (ws : list write) : Prop :=
    forall lid, In lid lids -> igood lid (length (d_led d lid)) (length (d_led d lid)) ws /\ fold_left (pend2 lid) ws false = false.
  Lemma commit_ifits : forall d lid ts, ifits d (commit_writes txn St up lids d lid ts).
  Proof.
    intros d lid ts l I. unfold commit_writes. destruct (Nat.eq_dec lid l) as [->|N].
    - split.
      + assert (H : forall ts' m r, (igood l (length (d_led d l)) (m + length ts') r) -> igood l (length (d_led d l)) m (map (WTxn l) ts' ++ r)).
        { induction ts' as [|t ts' IH]; intros m r G; cbn [map app igood length] in *; [rewrite Nat.add_0_r in G; exact G|].
          rewrite Nat.eqb_refl. apply IH. replace (S m + length ts') with (m + S (length ts')) by lia. exact G. }
        apply H. cbn [igood]. destruct (existsb _ _); [|exact Logic.I]. split; [|exact Logic.I].
        intros i L. apply in_map_iff. exists (i - length (d_led d l)). split; [f_equal; lia|]. apply in_seq. lia.
      + rewrite fold_left_app. cbn [fold_left pend2]. destruct ts as [|t ts]; [reflexivity|].
        cbn [length seq map existsb fst]. rewrite Nat.eqb_refl. reflexivity.
    - assert (O : ioff l (map (WTxn lid) ts ++ [WState lid (fold_left (up lid) ts (d_st d lid));
         WAudit (map (fun l0 => (l0, length (d_led d l0) + (if l0 =? lid then length ts else 0))) lids);
         WIndex (map (fun i => (lid, length (d_led d lid) + i)) (seq 0 (length ts)))])).
      { intros w Iw. apply in_app_or in Iw as [Iw|[<-|[<-|[<-|[]]]]]; try exact Logic.I.
        - apply in_map_iff in Iw as (t & <- & _). exact N.
        - apply Nat.eqb_neq in N. induction (seq 0 (length ts)) as [|a q IHq]; [reflexivity|]. cbn [map existsb fst]. rewrite N. exact IHq. }
      split; [|exact (ioff_pend l _ false O)].
      rewrite <- (app_nil_r (_ ++ _)). exact (ioff_good l _ [] _ _ O Logic.I).
  Qed.
  Lemma catchup_ifits : forall d m, ifits d (catchup_writes txn St up lids d (agreed_audit m) (agreed m)).
  Proof.
    intros d m lid I. unfold catchup_writes.
    apply in_split in I as (l1 & l2 & E). pose proof lids_nodup as ND. rewrite E in ND. apply NoDup_remove_2 in ND.
    assert (N1 : ~ In lid l1) by (intros X; apply ND, in_or_app; left; exact X).
    assert (N2 : ~ In lid l2) by (intros X; apply ND, in_or_app; right; exact X).
    set (f := fun l => ledger_writes txn St up d (get l (last (agreed_audit m) [])) (agreed m l) l).
    assert (F : flat_map f lids = flat_map f l1 ++ f lid ++ flat_map f l2) by (transitivity (flat_map f (l1 ++ lid :: l2)); [f_equal; exact E | rewrite flat_map_app; reflexivity]).
    rewrite F.
    assert (O0 : ioff lid (map WAudit (skipn (length (d_audit d)) (agreed_audit m)))) by (intros w Iw; apply in_map_iff in Iw as (x & <- & _); exact Logic.I).
    assert (O1 : ioff lid (flat_map f l1)) by exact (flat_ioff f l1 lid (fun l N => ledger_ioff d _ _ lid l N) N1).
    assert (O2 : ioff lid (flat_map f l2)) by exact (flat_ioff f l2 lid (fun l N => ledger_ioff d _ _ lid l N) N2).
    split.
    - apply (ioff_good lid _ _ _ _ O0). apply (ioff_good lid _ _ _ _ O1).
      assert (G2 : forall k, igood lid k k (flat_map f l2)) by (intros k; rewrite <- (app_nil_r (flat_map f l2)); exact (ioff_good lid _ [] k k O2 Logic.I)).
      unfold f at 1, ledger_writes. destruct (get lid _) as [n|]; [exact (add_igood lid _ _ _ _ G2) | exact (G2 _)].
    - rewrite !fold_left_app, (ioff_pend lid _ false O0), (ioff_pend lid _ false O1), (ioff_pend lid _ _ O2).
      unfold f, ledger_writes. destruct (get lid _) as [n|]; [apply add_pend2 | reflexivity].
  Qed.
  Lemma start_ifits : forall d, ifits d (start_writes txn St up is_blank lids d).
  Proof.
    intros d lid I. assert (O : ioff lid (start_writes txn St up is_blank lids d)).
    { intros w Iw. unfold start_writes in Iw. apply in_flat_map in Iw as (l & _ & Iw). destruct (is_blank _); [|destruct Iw].
      revert Iw. generalize (d_st d l). induction (d_led d l) as [|t ts IH]; intros s Iw; [destruct Iw|].
      destruct Iw as [<-|Iw]; [exact Logic.I | exact (IH _ Iw)]. }
    split; [|exact (ioff_pend lid _ false O)]. rewrite <- (app_nil_r (start_writes _ _ _ _ _ _)). exact (ioff_good lid _ [] _ _ O Logic.I).
  Qed.
  Lemma job_ifits : forall d j, ifits d (job_writes d j).
  Proof.
    intros d [| |m]; cbn [Recover_Model.job_writes]; [apply start_ifits | | apply catchup_ifits].
    destruct (nth_error batches _) as [[l ts]|]; [apply commit_ifits|]. intros lid I. split; [exact Logic.I | reflexivity].
  Qed.
  Lemma job_indexed : forall d j c, indexed txn St lids gen d -> (forall lid, In lid lids -> exists r, d_led d lid = gen lid ++ r) ->
    match c with None => True | Some n => forall lid, In lid lids -> unindexed txn St lid (firstn n (job_writes d j)) = false end ->
    indexed txn St lids gen (jstep d (j, c)) /\ (forall lid, In lid lids -> exists r, d_led (jstep d (j, c)) lid = gen lid ++ r).
  Proof.
    intros d j c X G C. unfold Recover_Model.jstep. cbn [fst snd].
    set (ws := match c with None => job_writes d j | Some n => firstn n (job_writes d j) end).
    assert (H : forall lid, In lid lids -> igood lid (length (d_led d lid)) (length (d_led d lid)) ws /\ fold_left (pend2 lid) ws false = false).
    { intros lid I. destruct (job_ifits d j lid I) as [H1 H2]. unfold ws. destruct c as [n|]; [|split; assumption].
      split; [apply igood_firstn; exact H1 | exact (C lid I)]. }
    clearbody ws. split.
    - intros lid i I L. rewrite performs_led, app_length in L. rewrite performs_index. apply in_or_app.
      destruct (Nat.lt_ge_cases i (length (d_led d lid))) as [LT|GE]; [left; exact (X lid i I (conj (proj1 L) LT))|].
      right. destruct (H lid I) as [H1 H2].
      exact (igood_index lid ws _ _ false _ H1 H2 (fun _ => eq_refl) (le_n _) (le_n _) i (conj GE (proj2 L))).
    - intros lid I. rewrite performs_led. destruct (G lid I) as (r & ->). exists (r ++ txns_of lid ws). rewrite app_assoc. reflexivity.
  Qed.
  Theorem careful_indexed : forall js d, indexed txn St lids gen d -> (forall lid, In lid lids -> exists r, d_led d lid = gen lid ++ r) ->
    careful_index txn St up is_blank lids batches gen d js -> indexed txn St lids gen (jrun d js).
  Proof.
    induction js as [|[j c] js IH]; intros d X G C; [exact X|]. cbn [careful_index] in C. destruct C as [C1 C].
    destruct (job_indexed d j c X G C1) as [X' G']. exact (IH _ X' G' C).
  Qed.
End Proofs.
