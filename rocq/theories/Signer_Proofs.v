(** Proofs for Signer_Props.v *)
From Coq Require Import List Arith Bool Lia.
Import ListNotations.
From Verif Require Import Signer_Model Signer_Spec.

Section Proofs.
  Variables (parse_sk parse_pk : nat -> option nat) (print_sk print_pk pub fresh : nat -> nat).
  Hypothesis sk_trip : forall x, parse_sk (print_sk x) = Some x.
  Hypothesis pk_trip : forall x, parse_pk (print_pk x) = Some x.
  Notation run := (run parse_sk parse_pk print_sk print_pk pub fresh).
  Notation step := (step parse_sk parse_pk print_sk print_pk pub fresh).

  Lemma run_snoc h o : run (h ++ [o]) = step (run h) o.
  Proof. unfold Signer_Model.run. now rewrite fold_left_app. Qed.
  Lemma seed_snoc h o : last_seed (h ++ [o]) = match o with Init sd => Some sd | _ => last_seed h end.
  Proof. unfold last_seed. rewrite fold_left_app. now destruct o. Qed.
  Lemma key_snoc h o : last_key (h ++ [o]) = match o with Own (Some k) _ => Some k | _ => last_key h end.
  Proof. unfold last_key. rewrite fold_left_app. now destruct o. Qed.
  Lemma val_snoc h o : validator (h ++ [o]) = match o with Own _ (Some b) => b | _ => validator h end.
  Proof. unfold validator. rewrite fold_left_app. now destruct o. Qed.
  Lemma up_snoc h o : up (h ++ [o]) = match o with Start => true | Stop => false | _ => up h end.
  Proof. unfold up. rewrite fold_left_app. now destruct o. Qed.
  Lemma on_snoc h o : on_ledger (h ++ [o]) = on_ledger h || match o with Own _ _ => true | _ => false end.
  Proof. unfold on_ledger. rewrite existsb_app. cbn [existsb]. now rewrite orb_false_r. Qed.
  Lemma whole_snoc h o : whole (h ++ [o]) -> whole h /\ match o with WriteSk _ | WritePk _ => False | _ => True end.
  Proof. intros H. split; [intros x Hx|]; apply H; apply in_or_app; [now left|right; now left]. Qed.

  Definition pair_of (sk : nat) : option nat * option nat := (Some sk, Some (pub sk)).
  Definition mem_ok (h : list op) (m : option mem) : Prop :=
    if up h then exists g, m = Some (Mem g (validator h)) /\ (g = None \/ exists x, g = Some (pair_of x)) else m = None.

  Lemma off_ledger h : on_ledger h = false -> validator h = false /\ last_key h = None.
  Proof.
    induction h as [|o h IH] using rev_ind; [now split|]. rewrite on_snoc, val_snoc, key_snoc. intros E.
    apply orb_false_iff in E as [E1 E2]. destruct (IH E1) as [A B]. destruct o; try discriminate; now split.
  Qed.

  Lemma inv h : whole h ->
    sk_file (run h) = option_map (fun d => print_sk (fresh d)) (last_seed h) /\
    pk_file (run h) = option_map (fun d => print_pk (pub (fresh d))) (last_seed h) /\
    ledger_key (run h) = last_key h /\
    services (run h) = (if on_ledger h then Some (validator h) else None) /\
    mem_ok h (memory (run h)).
  Proof.
    induction h as [|o h IH] using rev_ind; intros W.
    - repeat split.
    - apply whole_snoc in W as [W Wo]. destruct (IH W) as (A & B & C & D & E). clear IH.
      rewrite run_snoc, seed_snoc, key_snoc, on_snoc, val_snoc. unfold mem_ok in *. rewrite up_snoc, val_snoc.
      destruct o; try contradiction; cbn [Signer_Model.step init_bls_keys save_keys save_sk save_pk start own_txn
        sk_file pk_file ledger_key services memory option_map]; rewrite ?orb_false_r.
      + repeat split; auto.
      + repeat split; auto. rewrite D. eexists. split; [f_equal; f_equal|].
        * destruct (on_ledger h) eqn:O; [reflexivity|]. now destruct (off_ledger h O) as [-> _].
        * unfold saved_signer. rewrite A, B. destruct (last_seed h); cbn [option_map]; [|now left].
          rewrite sk_trip, pk_trip. right. eexists. reflexivity.
      + repeat split; auto.
      + split; [exact A|]. split; [exact B|]. split; [destruct key; auto|]. rewrite orb_true_r.
        split; [rewrite D; destruct serv as [b|]; [reflexivity|]; destruct (on_ledger h) eqn:O; [reflexivity|];
                now destruct (off_ledger h O) as [-> _]|].
        destruct (up h); [|now rewrite E]. destruct E as (g & E & G). rewrite E. unfold on_membership. rewrite D.
        destruct (on_ledger h) eqn:O.
        * cbn [in_reg m_signer].
          assert (R : services_changed (validator h) serv (validator h) = match serv with Some b => b | None => validator h end).
          { destruct serv as [[|]|]; cbn; auto; now destruct (validator h). }
          rewrite R. destruct key as [k|]; [|eexists; split; [reflexivity|exact G]].
          destruct (match serv with Some b => b | None => validator h end); [|eexists; split; [reflexivity|exact G]].
          unfold update_bls_key, saved_signer. cbn [sk_file pk_file]. rewrite A, B.
          destruct (last_seed h) as [sd|]; cbn [option_map]; [|eexists; split; [reflexivity|now left]].
          rewrite sk_trip, pk_trip. destruct (print_pk (pub (fresh sd)) =? k); eexists; (split; [reflexivity|]); [right; eexists; reflexivity|now left].
        * cbn [in_reg m_signer]. destruct (off_ledger h O) as [-> _].
          exists g. split; [|exact G]. destruct serv as [[|]|]; reflexivity.
  Qed.

  (** What a Commit carries after a transaction with key [k] for a running validator. *)
  Lemma rotated h k b : whole h -> up h = true -> on_ledger h = true -> validator (h ++ [Own (Some k) b]) = true ->
    commit_of (run (h ++ [Own (Some k) b])) =
      match last_seed h with
      | Some sd => if print_pk (pub (fresh sd)) =? k then Signed (fresh sd) else Unsigned
      | None => Unsigned
      end.
  Proof.
    intros W U O V. destruct (inv h W) as (A & B & C & D & E). rewrite val_snoc in V. unfold mem_ok in E. rewrite U in E.
    destruct E as (g & E & G). rewrite run_snoc. cbn [Signer_Model.step]. unfold commit_of, own_txn. cbn [memory].
    rewrite E. unfold on_membership. rewrite D, O. cbn [in_reg].
    assert (R : services_changed (validator h) b (validator h) = true).
    { destruct b as [[|]|]; cbn; auto; try discriminate. now destruct (validator h). }
    rewrite R. unfold update_bls_key, saved_signer. rewrite A, B.
    destruct (last_seed h) as [sd|]; cbn [option_map]; [|reflexivity].
    rewrite sk_trip, pk_trip. now destruct (print_pk (pub (fresh sd)) =? k).
  Qed.

  Lemma not_updated h k b : whole h -> up h = true -> (on_ledger h && validator (h ++ [Own k b])) = false \/ k = None ->
    commit_of (run (h ++ [Own k b])) = commit_of (run h).
  Proof.
    intros W U O. destruct (inv h W) as (A & B & C & D & E). rewrite val_snoc in O. unfold mem_ok in E. rewrite U in E.
    destruct E as (g & E & G). rewrite run_snoc. cbn [Signer_Model.step]. unfold commit_of, own_txn. cbn [memory].
    rewrite E. unfold on_membership. rewrite D. destruct (on_ledger h) eqn:L; [|reflexivity].
    cbn [in_reg m_signer andb] in *.
    assert (R : services_changed (validator h) b (validator h) = match b with Some b => b | None => validator h end).
    { destruct b as [[|]|]; cbn; auto; now destruct (validator h). }
    rewrite R. destruct k as [k|]; [|reflexivity]. destruct O as [O|O]; [|discriminate].
    destruct b as [b|]; now rewrite O.
  Qed.

  Lemma started h : whole h ->
    commit_of (run (h ++ [Start])) = match last_seed h with Some sd => Signed (fresh sd) | None => Unsigned end.
  Proof.
    intros W. destruct (inv h W) as (A & B & _). rewrite run_snoc. cbn. unfold commit_of, saved_signer. cbn [memory m_signer].
    rewrite A, B. destruct (last_seed h); cbn [option_map]; [|reflexivity]. now rewrite sk_trip.
  Qed.

  Lemma down h : whole h -> up h = false -> commit_of (run h) = Down.
  Proof. intros W U. destruct (inv h W) as (_ & _ & _ & _ & E). unfold mem_ok in E. rewrite U in E. unfold commit_of. now rewrite E. Qed.

  Lemma accepted h : whole h -> careful print_pk pub fresh (fun h => commit_of (run h)) h ->
    forall sk k, commit_of (run h) = Signed sk -> last_key h = Some k -> k = print_pk (pub sk).
  Proof.
    induction h as [|o h IH] using rev_ind; intros W Ca; [discriminate|].
    pose proof (whole_snoc _ _ W) as [W1 Wo].
    assert (Ca1 : careful print_pk pub fresh (fun h => commit_of (run h)) h).
    { intros h1 p h2 ->. apply (Ca h1 p (h2 ++ [o])). now rewrite <- app_assoc. }
    specialize (IH W1 Ca1). specialize (Ca h o [] eq_refl). intros sk k. rewrite key_snoc.
    destruct o as [sd|c|c| | |key b]; try contradiction.
    - rewrite run_snoc. exact (IH sk k).
    - rewrite started by exact W1. intros H K. destruct (last_seed h) as [sd|]; [|discriminate].
      injection H as <-. exact (Ca sd k eq_refl K).
    - rewrite run_snoc. discriminate.
    - destruct (up h) eqn:U.
      + destruct key as [k0|].
        * intros H [= <-]. destruct (on_ledger h && validator (h ++ [Own (Some k0) b])) eqn:G.
          { apply andb_true_iff in G as [G1 G2]. rewrite rotated in H by assumption.
            destruct (last_seed h) as [sd|]; [|discriminate].
            destruct (print_pk (pub (fresh sd)) =? k0) eqn:Q; [|discriminate]. injection H as <-. now apply Nat.eqb_eq in Q. }
          { rewrite not_updated in H by auto. destruct Ca as [Ca|[[Ca1' Ca2]|Ca]]; [discriminate| |exact (Ca sk H)].
            rewrite Ca1', Ca2 in G. discriminate. }
        * rewrite not_updated by auto. exact (IH sk k).
      + rewrite down; [discriminate|exact W|]. now rewrite up_snoc.
  Qed.

  Lemma no_sk h : (forall o, In o h -> match o with Init _ | WriteSk _ => False | _ => True end) -> sk_file (run h) = None.
  Proof.
    induction h as [|o h IH] using rev_ind; intros N; [reflexivity|]. rewrite run_snoc.
    assert (E : sk_file (run h) = None) by (apply IH; intros x Hx; apply N; apply in_or_app; now left).
    specialize (N o). assert (Io : In o (h ++ [o])) by (apply in_or_app; right; now left). specialize (N Io).
    destruct o; try contradiction; exact E.
  Qed.
  Lemma no_pk h : (forall o, In o h -> match o with Init _ | WritePk _ => False | _ => True end) -> pk_file (run h) = None.
  Proof.
    induction h as [|o h IH] using rev_ind; intros N; [reflexivity|]. rewrite run_snoc.
    assert (E : pk_file (run h) = None) by (apply IH; intros x Hx; apply N; apply in_or_app; now left).
    specialize (N o). assert (Io : In o (h ++ [o])) by (apply in_or_app; right; now left). specialize (N Io).
    destruct o; try contradiction; exact E.
  Qed.

  (** Writing key files does not change a running node. *)
  Lemma files s o : match o with Init _ | WriteSk _ | WritePk _ => True | _ => False end -> commit_of (step s o) = commit_of s.
  Proof. destruct o; intros H; try contradiction; reflexivity. Qed.
End Proofs.
