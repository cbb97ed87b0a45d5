(** C110: version strings. *)
From Coq Require Import Ascii Decimal DecimalNat DecimalFacts List Arith Bool Lia.
From Verif Require Import Version_Model Version_Spec.
Import ListNotations.
Open Scope char_scope.

Definition stops (r : text) : Prop := match r with [] => True | c :: _ => digit c = None end.
Lemma span_digits u : forall r, stops r -> span (digits u ++ r) = (u, r).
Proof.
  induction u; intros r H; cbn [digits app span digit]; try (cbn; rewrite IHu by exact H; reflexivity).
  destruct r as [|c r]; cbn; [reflexivity|]. cbn in H. rewrite H. reflexivity.
Qed.
Lemma digit_sound c f u : digit c = Some f -> digits (f u) = c :: digits u /\ f u <> Nil.
Proof.
  unfold digit. repeat (match goal with |- context [Ascii.eqb c ?x] => destruct (Ascii.eqb_spec c x) as [->|_]; [intros [= <-]; split; [reflexivity|discriminate]|] end).
  discriminate.
Qed.
Lemma span_sound s : forall u r, span s = (u, r) -> s = digits u ++ r.
Proof.
  induction s as [|c q IH]; intros u r; cbn; [intros [= <- <-]; reflexivity|]. destruct (digit c) as [f|] eqn:E; [|intros [= <- <-]; reflexivity].
  destruct (span q) as [v x]. intros [= <- <-]. destruct (digit_sound c f v E) as [-> _]. cbn. rewrite (IH v x eq_refl) at 1. reflexivity.
Qed.
Lemma number_spells t n r : spells t n -> stops r -> number (t ++ r) = Some (n, r).
Proof.
  intros (u & N & -> & <-) S. unfold number. rewrite span_digits by exact S. destruct u; [congruence| | | | | | | | | |]; reflexivity.
Qed.
Lemma number_sound s n r : number s = Some (n, r) -> exists t, spells t n /\ s = t ++ r.
Proof.
  unfold number. destruct (span s) as [u x] eqn:E. apply span_sound in E. intros H.
  assert (K : u <> Nil /\ Nat.of_uint u = n /\ x = r) by (destruct u; [discriminate| | | | | | | | | |]; injection H as <- <-; (split; [discriminate|split; reflexivity])).
  destruct K as (K1 & K2 & <-). exists (digits u). split; [exists u; auto|exact E].
Qed.
Lemma str_spells n : spells (str n) n.
Proof.
  exists (Nat.to_uint n). split; [|split; [reflexivity|apply Unsigned.of_to]]. intros H.
  pose proof (Unsigned.of_to n) as E. rewrite H in E. cbn in E. subst n. discriminate H.
Qed.
Lemma strip_sound p : forall s r, strip p s = Some r -> s = p ++ r.
Proof.
  induction p as [|c p IH]; intros [|d s] r; cbn; try discriminate; try (intros [= <-]; reflexivity).
  destruct (Ascii.eqb_spec c d) as [->|]; [|discriminate]. intros H. rewrite <- (IH _ _ H). reflexivity.
Qed.
Lemma get_phase_sound s p r : get_phase s = Some (p, r) -> s = phase_name p ++ r.
Proof.
  unfold get_phase. repeat (match goal with |- context [strip (phase_name ?x) s] => destruct (strip (phase_name x) s) as [t|] eqn:?E; [intros [= <- <-]; apply strip_sound; assumption|] end). discriminate.
Qed.
Lemma get_phase_name p r : get_phase (phase_name p ++ r) = Some (p, r).
Proof. destruct p; reflexivity. Qed.
Lemma dot_sound s r : dot s = Some r -> s = "." :: r.
Proof. destruct s as [|c q]; cbn; [discriminate|]. destruct (Ascii.eqb_spec c ".") as [->|]; [intros [= <-]; reflexivity|discriminate]. Qed.
Lemma dot_opt_sound s : s = dot_opt s \/ s = "." :: dot_opt s.
Proof. unfold dot_opt. destruct (dot s) as [r|] eqn:E; [right; apply dot_sound, E|left; reflexivity]. Qed.
Lemma dot_spells t n r : spells t n -> dot (t ++ r) = None.
Proof. intros (u & N & -> & _). destruct u; [congruence| | | | | | | | | |]; reflexivity. Qed.
Lemma dot_phase p r : dot (phase_name p ++ r) = None.
Proof. destruct p; reflexivity. Qed.
Lemma spells_nonempty t n : spells t n -> t <> [].
Proof. intros (u & N & -> & _). destruct u; [congruence| | | | | | | | | |]; discriminate. Qed.

(** The texts that are accepted, and the versions they stand for, are exactly those of the form the error message names *)
Theorem C110_form : forall s v, parse s = Some v <-> form s v.
Proof.
  intros s v. split.
  - unfold parse. destruct (number s) as [[a s1]|] eqn:E1; [|discriminate]. destruct (dot s1) as [s2|] eqn:E2; [|discriminate].
    destruct (number s2) as [[b s3]|] eqn:E3; [|discriminate]. destruct (dot s3) as [s4|] eqn:E4; [|discriminate]. destruct (number s4) as [[c s5]|] eqn:E5; [|discriminate].
    apply number_sound in E1. destruct E1 as (ta & A1 & ->). apply dot_sound in E2. subst s1. apply number_sound in E3. destruct E3 as (tb & B1 & ->).
    apply dot_sound in E4. subst s3. apply number_sound in E5. destruct E5 as (tc & C1 & ->).
    destruct s5 as [|x y] eqn:S5.
    + intros [= <-]. exists ta, tb, tc, []. cbn. repeat (split; [assumption|]). split; [rewrite app_nil_r; reflexivity|reflexivity].
    + rewrite <- S5. clear S5 x y. intros H. destruct (get_phase (dot_opt s5)) as [[p s6]|] eqn:E6; [|discriminate].
      destruct (number (dot_opt s6)) as [[n [|z s7]]|] eqn:E7; try discriminate. injection H as <-.
      apply get_phase_sound in E6. apply number_sound in E7. destruct E7 as (tn & N1 & E7). rewrite app_nil_r in E7.
      exists ta, tb, tc, s5. cbn [major minor patch pre]. repeat (split; [assumption|]). split; [reflexivity|].
      exists (match dot s5 with Some _ => ["."] | None => [] end), (match dot s6 with Some _ => ["."] | None => [] end), tn.
      split; [destruct (dot s5); auto|]. split; [destruct (dot s6); auto|]. split; [exact N1|].
      unfold dot_opt in E6, E7. destruct (dot s5) as [q|] eqn:D5; [apply dot_sound in D5; subst s5|]; rewrite E6; clear E6.
      * cbn. do 2 f_equal. destruct (dot s6) as [q6|] eqn:D6; [apply dot_sound in D6; subst s6|]; rewrite E7; reflexivity.
      * cbn. f_equal. destruct (dot s6) as [q6|] eqn:D6; [apply dot_sound in D6; subst s6|]; rewrite E7; reflexivity.
  - intros (a & b & c & e & SA & SB & SC & -> & P). unfold parse.
    rewrite (number_spells _ _ _ SA) by reflexivity. cbn [dot Ascii.eqb Bool.eqb]. rewrite (number_spells _ _ _ SB) by reflexivity. cbn [dot Ascii.eqb Bool.eqb].
    destruct v as [va vb vc [[p n]|]]; cbn [major minor patch pre] in *.
    + destruct P as (d1 & d2 & t & D1 & D2 & N & ->).
      assert (S1 : stops (d1 ++ phase_name p ++ d2 ++ t)) by (destruct D1 as [->| ->]; destruct p; reflexivity).
      rewrite (number_spells _ _ _ SC S1).
      destruct (d1 ++ phase_name p ++ d2 ++ t) as [|x y] eqn:E; [destruct d1; destruct p; discriminate|]. rewrite <- E. clear E x y S1.
      assert (G : dot_opt (d1 ++ phase_name p ++ d2 ++ t) = phase_name p ++ d2 ++ t).
      { unfold dot_opt. destruct D1 as [->| ->]; [cbn [app]; rewrite dot_phase; reflexivity|reflexivity]. }
      rewrite G, get_phase_name.
      assert (G2 : dot_opt (d2 ++ t) = t).
      { unfold dot_opt. destruct D2 as [->| ->]; [|reflexivity]. cbn [app]. rewrite <- (app_nil_r t) at 1. rewrite (dot_spells _ _ _ N). reflexivity. }
      rewrite G2. rewrite <- (app_nil_r t). rewrite (number_spells _ _ [] N) by exact Logic.I. reflexivity.
    + subst e. rewrite (number_spells _ _ _ SC) by exact Logic.I. reflexivity.
Qed.
(** A version is written as a text that is read as the same version *)
Theorem C110_roundtrip : forall v, parse (full v) = Some v.
Proof.
  intros v. apply C110_form. exists (str (major v)), (str (minor v)), (str (patch v)).
  exists (match pre v with None => [] | Some (p, n) => (match dev v with None | Some 0 => [] | Some _ => ["."] end) ++ phase_name p ++ str n end).
  repeat (split; [apply str_spells|]). split; [unfold full, base; rewrite <- !app_assoc; cbn; rewrite <- !app_assoc; reflexivity|].
  destruct (pre v) as [[p n]|]; [|reflexivity].
  exists (match dev v with None | Some 0 => [] | Some _ => ["."] end), [], (str n). split; [destruct (dev v) as [[|k]|]; auto|].
  split; [auto|]. split; [apply str_spells|reflexivity].
Qed.
(** Different versions are written differently *)
Theorem C110_injective : forall v w, full v = full w -> v = w.
Proof. intros v w H. pose proof (C110_roundtrip v) as P. rewrite H, C110_roundtrip in P. injection P as P. symmetry. exact P. Qed.
(** A plenum version is a release, a release candidate or a development version *)
Theorem C110_plenum : forall v, plenum_version v = true <-> (pre v = None \/ exists n, pre v = Some (RC, n) \/ pre v = Some (Dev, n)).
Proof.
  intros [a b c [[[| | |] n]|]]; cbn; split; intros H; try reflexivity; try discriminate; eauto.
  - destruct H as [H|[m [H|H]]]; discriminate.
  - destruct H as [H|[m [H|H]]]; discriminate.
Qed.
Lemma digits_ok u : digits_and_dots (digits u).
Proof. induction u; intros c H; cbn in H; [destruct H| | | | | | | | | |]; (destruct H as [<-|H]; [right; cbn; tauto|apply IHu, H]). Qed.
Lemma base_ok v : digits_and_dots (base v).
Proof.
  intros c H. unfold base in H. apply in_app_or in H. destruct H as [H|[<-|H]]; [eapply digits_ok; exact H|left; reflexivity|].
  apply in_app_or in H. destruct H as [H|[<-|H]]; [eapply digits_ok; exact H|left; reflexivity|eapply digits_ok; exact H].
Qed.
(** A version of digits and dots, written, has nothing else, if it is not development version 0 *)
Theorem C110_digit_dot_partial : forall k v, digit_dot k v = true -> pre v <> Some (Dev, 0) -> pre v = None /\ digits_and_dots (full v).
Proof.
  intros k v H N. assert (P : pre v = None).
  { unfold digit_dot, dev, pre_release in H. destruct (pre v) as [[[| | |] [|n]]|]; try reflexivity; cbn in H; try discriminate. congruence. }
  split; [exact P|]. unfold full. rewrite P, app_nil_r. apply base_ok.
Qed.
(** and every release is one, for the right number of parts *)
Theorem C110_digit_dot_accepts : forall k v, pre v = None -> (k = [] \/ In 3 k) -> digit_dot k v = true.
Proof.
  intros k v P H. unfold digit_dot, dev, pre_release. rewrite P. cbn. destruct k as [|x k]; [reflexivity|]. destruct H as [H|H]; [discriminate|].
  apply existsb_exists. exists 3. split; [exact H|reflexivity].
Qed.
Theorem C110_digit_dot_parts : forall k v, digit_dot k v = true -> k <> [] -> In 3 k.
Proof.
  intros k v H N. unfold digit_dot in H. apply andb_true_iff in H. destruct H as [_ H]. destruct k as [|x k]; [congruence|].
  apply existsb_exists in H. destruct H as (y & I & E). apply Nat.eqb_eq in E. subst. exact I.
Qed.
(** development version 0 of every release passes as a version of digits and dots *)
Theorem C110_digit_dot_refuted : forall a b c, let v := Version a b c (Some (Dev, 0)) in
  digit_dot [3] v = true /\ parse (full v) = Some v /\ ~ digits_and_dots (full v).
Proof.
  intros a b c. cbn zeta. split; [reflexivity|]. split; [apply C110_roundtrip|]. intros H.
  specialize (H "d"). unfold full in H. cbn [pre dev] in H. destruct H as [H|H]; [apply in_or_app; right; left; reflexivity|discriminate|].
  cbn in H. repeat (destruct H as [H|H]; [discriminate|]). exact H.
Qed.

Example C110_ex : parse ["1"; "."; "0"; "2"; "."; "1"; "0"; "."; "d"; "e"; "v"; "7"] = Some (Version 1 2 10 (Some (Dev, 7))) /\
  full (Version 1 2 10 (Some (Dev, 7))) = ["1"; "."; "2"; "."; "1"; "0"; "."; "d"; "e"; "v"; "7"] /\
  full (Version 1 2 10 (Some (Dev, 0))) = ["1"; "."; "2"; "."; "1"; "0"; "d"; "e"; "v"; "0"] /\
  parse ["1"; "."; "2"] = None /\ parse ["1"; "."; "2"; "."; "3"; "r"; "c"] = None /\ parse ["1"; "."; "2"; "."; "3"; "."; "r"; "c"; "."; "4"] = Some (Version 1 2 3 (Some (RC, 4))).
Proof. repeat split. Qed.
Example C110_digit_dot_ex : digit_dot [3] (Version 1 2 3 None) = true /\ digit_dot [2] (Version 1 2 3 None) = false /\ digit_dot [3] (Version 1 2 3 (Some (RC, 0))) = false /\
  plenum_version (Version 1 2 3 (Some (A, 1))) = false.
Proof. repeat split. Qed.

Print Assumptions C110_form.
Print Assumptions C110_roundtrip.
Print Assumptions C110_digit_dot_partial.
Print Assumptions C110_digit_dot_refuted.
