(** C98: the BLS signatures of a node verify under the key the pool ledger has for it. *)
From Coq Require Import List Arith Bool.
Import ListNotations.
From Verif Require Import Signer_Model Signer_Spec Signer_Proofs.

Section Props.
  (** What is assumed of the library: writing a key as a string and reading it gives the key. *)
  Variables (parse_sk parse_pk : nat -> option nat) (print_sk print_pk pub fresh : nat -> nat).
  Hypothesis sk_trip : forall x, parse_sk (print_sk x) = Some x.
  Hypothesis pk_trip : forall x, parse_pk (print_pk x) = Some x.
  Notation run := (run parse_sk parse_pk print_sk print_pk pub fresh).
  Notation step := (step parse_sk parse_pk print_sk print_pk pub fresh).
  Notation after h := (commit_of (run h)).
  (** the string of the public key made from a seed *)
  Notation key sd := (print_pk (pub (fresh sd))).

  (** Whatever a careful operator does (the key files are written by complete runs of the script; see
      [careful]): a signature the node sends is good under the key on the ledger.  Without care it
      need not be, see the four refutations below. *)
  Theorem C98_accepted_partial : forall h, whole h -> careful print_pk pub fresh (fun h => after h) h ->
    forall sk k, after h = Signed sk -> last_key h = Some k -> good parse_pk pub sk k.
  Proof.
    intros h W C sk k H K. unfold good.
    rewrite (accepted parse_sk parse_pk print_sk print_pk pub fresh sk_trip pk_trip h W C sk k H K). apply pk_trip.
  Qed.

  (** After a transaction with key [k] a running validator signs with the saved key if that is [k],
      and does not sign otherwise.  Whatever happened before. *)
  Theorem C98_rotated : forall h k b, whole h -> up h = true -> on_ledger h = true ->
    validator (h ++ [Own (Some k) b]) = true ->
    (forall sd, last_seed h = Some sd -> key sd = k -> after (h ++ [Own (Some k) b]) = Signed (fresh sd)) /\
    ((forall sd, last_seed h = Some sd -> key sd <> k) -> after (h ++ [Own (Some k) b]) = Unsigned).
  Proof.
    intros h k b W U O V. rewrite (rotated parse_sk parse_pk print_sk print_pk pub fresh sk_trip pk_trip h k b W U O V).
    destruct (last_seed h) as [sd|].
    - split; [intros d [= <-] E|intros E; specialize (E sd eq_refl)].
      + apply Nat.eqb_eq in E. now rewrite E.
      + apply Nat.eqb_neq in E. now rewrite E.
    - split; [discriminate|reflexivity].
  Qed.

  (** So the two steps of the manual, the script and then the transaction with the key it printed, make
      a running validator sign with the new key, and from the script to the transaction it goes on
      signing with the old one. *)
  Theorem C98_install : forall h sd, whole h -> up h = true -> on_ledger h = true -> validator h = true ->
    after (h ++ [Init sd]) = after h /\
    after (h ++ [Init sd; Own (Some (key sd)) None]) = Signed (fresh sd).
  Proof.
    intros h sd W U O V. split.
    - rewrite run_snoc. now apply files.
    - replace (h ++ [Init sd; Own (Some (key sd)) None]) with ((h ++ [Init sd]) ++ [Own (Some (key sd)) None]) by now rewrite <- app_assoc.
      rewrite (rotated parse_sk parse_pk print_sk print_pk pub fresh sk_trip pk_trip).
      + rewrite seed_snoc. now rewrite Nat.eqb_refl.
      + intros o Ho. apply in_app_or in Ho as [Ho|[<-|[]]]; [now apply W|exact I].
      + now rewrite up_snoc.
      + rewrite on_snoc, O. reflexivity.
      + now rewrite !val_snoc.
  Qed.

  (** Writing the key files, even in part, does not change what a running node does. *)
  Theorem C98_files : forall h o, match o with Init _ | WriteSk _ | WritePk _ => True | _ => False end ->
    after (h ++ [o]) = after h.
  Proof. intros h o H. rewrite run_snoc. now apply files. Qed.

  (** A transaction of the node which has no key in it changes nothing either. *)
  Theorem C98_other_txn : forall h b, whole h -> up h = true -> after (h ++ [Own None b]) = after h.
  Proof.
    intros h b W U. apply (not_updated parse_sk parse_pk print_sk print_pk pub fresh sk_trip pk_trip); auto.
  Qed.

  (** If one of the files was never written the node starts and does not sign. *)
  Theorem C98_missing : forall h,
    (forall o, In o h -> match o with Init _ | WriteSk _ => False | _ => True end) \/
    (forall o, In o h -> match o with Init _ | WritePk _ => False | _ => True end) ->
    after (h ++ [Start]) = Unsigned.
  Proof.
    intros h [H|H]; rewrite run_snoc; cbn [Signer_Model.step]; unfold commit_of, start, saved_signer; cbn [memory m_signer].
    - now rewrite no_sk.
    - rewrite no_pk by assumption. now destruct (sk_file _).
  Qed.

  Section Two.
    Variables (a b : nat).
    Hypothesis differ : pub (fresh a) <> pub (fresh b).
    (** REFUTED: a node that restarts after the script and before the transaction signs with a key the
        ledger does not have; the start does not look at the ledger. *)
    Theorem C98_restart_refuted :
      let h := [Init a; Own (Some (key a)) (Some true); Start; Init b; Stop; Start] in
      whole h /\ after h = Signed (fresh b) /\ last_key h = Some (key a) /\ ~ good parse_pk pub (fresh b) (key a).
    Proof.
      cbv zeta. split; [intros o Ho; cbn in Ho; decompose [or] Ho; subst; try exact I; contradiction|].
      split; [cbn; unfold commit_of, saved_signer; cbn; now rewrite sk_trip|].
      split; [reflexivity|]. unfold good. rewrite pk_trip. congruence.
    Qed.

    (** REFUTED: a key that comes while the node is no validator is not looked at; when the node is a
        validator again it signs with the old key. *)
    Theorem C98_demoted_refuted :
      let h := [Init a; Own (Some (key a)) (Some true); Start; Own None (Some false);
                Init b; Own (Some (key b)) None; Own None (Some true)] in
      whole h /\ after h = Signed (fresh a) /\ last_key h = Some (key b) /\ ~ good parse_pk pub (fresh a) (key b).
    Proof.
      cbv zeta. split; [intros o Ho; cbn in Ho; decompose [or] Ho; subst; try exact I; contradiction|].
      split; [cbn; unfold commit_of, saved_signer; cbn; now rewrite sk_trip|].
      split; [reflexivity|]. unfold good. rewrite pk_trip. congruence.
    Qed.

    (** REFUTED: the first transaction of a node that is running already is not compared with the saved
        key. *)
    Theorem C98_first_refuted :
      let h := [Init a; Start; Own (Some (key b)) (Some true)] in
      whole h /\ after h = Signed (fresh a) /\ last_key h = Some (key b) /\ ~ good parse_pk pub (fresh a) (key b).
    Proof.
      cbv zeta. split; [intros o Ho; cbn in Ho; decompose [or] Ho; subst; try exact I; contradiction|].
      split; [cbn; unfold commit_of, saved_signer; cbn; now rewrite sk_trip|].
      split; [reflexivity|]. unfold good. rewrite pk_trip. congruence.
    Qed.

    (** REFUTED: the script saves the secret key first.  If it ends before the public one, the check
        passes for the old public key and the node signs with the new secret one. *)
    Theorem C98_cut_refuted :
      let h := [Init a; Own (Some (key a)) (Some true); Start; WriteSk (print_sk (fresh b)); Own (Some (key a)) None] in
      after h = Signed (fresh b) /\ last_key h = Some (key a) /\ ~ good parse_pk pub (fresh b) (key a).
    Proof.
      cbv zeta. split; [cbn; unfold commit_of, update_bls_key, saved_signer; cbn; now rewrite !sk_trip, !pk_trip, Nat.eqb_refl|].
      split; [reflexivity|]. unfold good. rewrite pk_trip. congruence.
    Qed.
  End Two.

  (** REFUTED: that a damaged key file only keeps the node from signing.  With a public key file that
      does not parse, the next transaction with a key for a running validator raises an error and the
      node goes down; with such a secret key file the node raises for each Commit after its start. *)
  Theorem C98_damaged_refuted :
    (forall a c k, parse_pk c = None ->
       after [Init a; Own (Some (key a)) (Some true); Start; WritePk c; Own (Some k) None] = Down) /\
    (forall a c, parse_sk c = None -> after [Init a; WriteSk c; Start] = Raises).
  Proof.
    split; intros.
    - cbn. unfold commit_of, update_bls_key, saved_signer. cbn. now rewrite sk_trip, H.
    - cbn. unfold commit_of, saved_signer. cbn. now rewrite H.
  Qed.
End Props.

(** Concrete library: a string is even, a key is its half; the public key of [x] is [x + 5]. *)
Definition demo_parse (c : nat) : option nat := if Nat.even c then Some (Nat.div2 c) else None.
Definition demo_print (x : nat) : nat := 2 * x.
Definition demo_pub (x : nat) : nat := x + 5.
Definition demo_fresh (sd : nat) : nat := sd + 1.
Lemma demo_trip : forall x, demo_parse (demo_print x) = Some x.
Proof.
  intros x. unfold demo_parse, demo_print. rewrite Nat.even_mul. cbn [Nat.even orb]. now rewrite Nat.div2_double.
Qed.
Notation demo_run h := (run demo_parse demo_parse demo_print demo_print demo_pub demo_fresh h).
Notation demo_careful h := (careful demo_print demo_pub demo_fresh (fun g => commit_of (demo_run g)) h).

(** A careful history: keys, transaction, start, new keys, new transaction, demotion and restart. *)
Definition demo_h : list op := [Init 1; Own (Some 14) (Some true); Start; Init 2; Own (Some 16) None; Own None (Some false); Stop; Start].
Example demo_whole : whole demo_h.
Proof. intros o Ho. cbn in Ho. decompose [or] Ho; subst; try exact I; contradiction. Qed.
Example demo_is_careful : demo_careful demo_h.
Proof.
  intros h1 o h2 E. unfold demo_h in E.
  destruct h1 as [|? h1]; cbn [app] in E; injection E as <- E; [exact I|].
  destruct h1 as [|? h1]; cbn [app] in E; injection E as <- E; [left; reflexivity|].
  destruct h1 as [|? h1]; cbn [app] in E; injection E as <- E; [intros sd k [= <-] [= <-]; reflexivity|].
  destruct h1 as [|? h1]; cbn [app] in E; injection E as <- E; [exact I|].
  destruct h1 as [|? h1]; cbn [app] in E; injection E as <- E; [right; left; split; reflexivity|].
  destruct h1 as [|? h1]; cbn [app] in E; injection E as <- E; [exact I|].
  destruct h1 as [|? h1]; cbn [app] in E; injection E as <- E; [exact I|].
  destruct h1 as [|? h1]; cbn [app] in E; injection E as <- E; [intros sd k [= <-] [= <-]; reflexivity|].
  destruct h1; discriminate.
Qed.
Example demo_signed : commit_of (demo_run demo_h) = Signed 3 /\ last_key demo_h = Some 16.
Proof. split; reflexivity. Qed.
Example demo_good : good demo_parse demo_pub 3 16.
Proof. exact (C98_accepted_partial _ _ _ _ _ _ demo_trip demo_trip demo_h demo_whole demo_is_careful 3 16 (proj1 demo_signed) (proj2 demo_signed)). Qed.
(** C98_rotated and C98_install: the state before the second transaction. *)
Example demo_rotated : let h := [Init 1; Own (Some 14) (Some true); Start; Init 2] in
  up h = true /\ on_ledger h = true /\ validator h = true /\
  commit_of (demo_run h) = Signed 2 /\
  commit_of (demo_run (h ++ [Own (Some 16) None])) = Signed 3 /\
  commit_of (demo_run (h ++ [Own (Some 20) None])) = Unsigned.
Proof. repeat split; reflexivity. Qed.
Example demo_missing : commit_of (demo_run [WriteSk 4; Own (Some 14) (Some true); Start]) = Unsigned.
Proof. reflexivity. Qed.
Example demo_differ : demo_pub (demo_fresh 1) <> demo_pub (demo_fresh 2).
Proof. discriminate. Qed.
Example demo_damaged : demo_parse 7 = None /\ commit_of (demo_run [Init 1; WriteSk 7; Start]) = Raises.
Proof. split; reflexivity. Qed.

Print Assumptions C98_accepted_partial.
Print Assumptions C98_rotated.
Print Assumptions C98_install.
Print Assumptions C98_files.
Print Assumptions C98_other_txn.
Print Assumptions C98_missing.
Print Assumptions C98_restart_refuted.
Print Assumptions C98_demoted_refuted.
Print Assumptions C98_first_refuted.
Print Assumptions C98_cut_refuted.
Print Assumptions C98_damaged_refuted.
