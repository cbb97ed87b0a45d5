(** Proofs for C86. *)
From Coq Require Import List Arith Bool Lia.
From Verif Require Import Genesis_Model Genesis_Spec.
Import ListNotations.

Lemma split_app cur a c b : is_end c = true -> split_lines cur (a ++ c :: b) = split_lines cur a ++ split_lines [] b.
Proof.
  intros E. revert cur. induction a as [|x a IH]; intros cur; simpl; [rewrite E; reflexivity|].
  destruct (is_end x); [rewrite IH; reflexivity|apply IH].
Qed.
Lemma clean_app a c b : is_end c = true -> clean_lines (a ++ c :: b) = clean_lines a ++ clean_lines b.
Proof. intros E. unfold clean_lines. rewrite (split_app [] a c b E). apply filter_app. Qed.
Lemma split_plain cur s : ~ In LF s -> ~ In CR s -> split_lines cur s = [cur ++ s].
Proof.
  revert cur. induction s as [|c s IH]; intros cur A B; simpl; [rewrite app_nil_r; reflexivity|].
  assert (is_end c = false) as ->.
  { unfold is_end. destruct (Nat.eqb_spec c 10) as [->|]; [exfalso; apply A; left; reflexivity|]. destruct (Nat.eqb_spec c 13) as [->|]; [exfalso; apply B; left; reflexivity|reflexivity]. }
  rewrite IH; [rewrite <- app_assoc; reflexivity|intros I; apply A; right; exact I|intros I; apply B; right; exact I].
Qed.
Lemma clean_plain s : s <> [] -> ~ In LF s -> ~ In CR s -> clean_lines s = [s].
Proof. intros N A B. unfold clean_lines. rewrite (split_plain [] s A B). simpl. destruct s; [contradiction|reflexivity]. Qed.
Lemma clean_nil : clean_lines [] = [].
Proof. reflexivity. Qed.
Lemma clean_crlf a b : clean_lines (a ++ CR :: LF :: b) = clean_lines a ++ clean_lines b.
Proof. rewrite (clean_app a CR (LF :: b) eq_refl). reflexivity. Qed.
(** a text that ends with a line end *)
Definition ended (s : list nat) : Prop := s = [] \/ exists s' c, s = s' ++ [c] /\ is_end c = true.
Lemma clean_ended a b : ended a -> clean_lines (a ++ b) = clean_lines a ++ clean_lines b.
Proof.
  intros [->|(s & c & -> & E)]; [reflexivity|]. rewrite <- app_assoc. cbn [app]. rewrite (clean_app s c b E), (clean_app s c [] E), clean_nil, app_nil_r. reflexivity.
Qed.
Lemma put_line_ended s v : ended (put_line s v).
Proof. right. exists (s ++ v ++ [CR]), LF. split; [|reflexivity]. unfold put_line. rewrite <- !app_assoc. reflexivity. Qed.
Lemma put_line_clean s v : ended s -> v <> [] -> ~ In LF v -> ~ In CR v -> clean_lines (put_line s v) = clean_lines s ++ [v].
Proof. intros E N A B. unfold put_line. rewrite (clean_ended s _ E), clean_crlf, clean_nil, app_nil_r, (clean_plain v N A B). reflexivity. Qed.
Lemma put_lines_clean vs : forall s, ended s -> (forall v, In v vs -> v <> [] /\ ~ In LF v /\ ~ In CR v) ->
  clean_lines (fold_left put_line vs s) = clean_lines s ++ vs /\ ended (fold_left put_line vs s).
Proof.
  induction vs as [|v vs IH]; intros s E H; simpl; [rewrite app_nil_r; auto|].
  destruct (H v (or_introl eq_refl)) as (N & A & B). destruct (IH (put_line s v)) as [IH1 IH2]; [apply put_line_ended|intros w W; apply H; right; exact W|].
  split; [|exact IH2]. rewrite IH1, (put_line_clean s v E N A B), <- app_assoc. reflexivity.
Qed.
Lemma open_text_ok s s' : open_text s = Some s' -> clean_lines s' = clean_lines s /\ ended s'.
Proof.
  unfold open_text. destruct (length s) as [|[|n]] eqn:L; intros E; [|discriminate|].
  - injection E as <-. split; [reflexivity|]. left. apply length_zero_iff_nil. exact L.
  - cbn [Nat.sub] in E. rewrite Nat.sub_0_r in E.
    destruct ((nth n s 0 =? 13) && (nth (S n) s 0 =? 10)) eqn:Q; injection E as <-.
    + split; [reflexivity|]. right. apply andb_true_iff in Q as [_ Q]. apply Nat.eqb_eq in Q.
      destruct (exists_last (l := s)) as (s0 & c & ->); [intros ->; discriminate|]. rewrite app_length in L. simpl in L.
      exists s0, c. split; [reflexivity|]. rewrite app_nth2 in Q by lia. replace (S n - length s0) with 0 in Q by lia. simpl in Q. subst c. reflexivity.
    + split; [rewrite (clean_crlf s []), clean_nil, app_nil_r; reflexivity|].
      right. exists (s ++ [CR]), LF. split; [rewrite <- app_assoc; reflexivity|reflexivity].
Qed.

Section P.
  Variable txn : Type.
  Variable ser : txn -> list nat.
  Variable de : list nat -> option txn.
  Variable author : txn -> nat.
  Variable with_number : txn -> nat -> txn.
  Notation genesis_of := (genesis_of txn de).
  Notation adds := (adds txn de).
  Lemma readable_genesis s : readable txn de s = true <-> genesis_of s <> None.
  Proof.
    unfold readable, Genesis_Spec.genesis_of. induction (clean_lines s) as [|l ls IH]; simpl; [split; [discriminate|reflexivity]|].
    destruct (de l); simpl; [|split; [discriminate|contradiction]]. rewrite IH. destruct (all_some txn (map de ls)); split; congruence.
  Qed.
  Lemma adds_all ls ts : all_some txn (map de ls) = Some ts -> adds ls = (ts, true).
  Proof.
    revert ts. induction ls as [|l ls IH]; simpl; intros ts E; [injection E as <-; reflexivity|].
    destruct (de l) as [t|]; [|discriminate]. destruct (all_some txn (map de ls)) as [ts'|]; [|discriminate]. injection E as <-. rewrite (IH ts' eq_refl). reflexivity.
  Qed.
  Lemma all_some_app a b : all_some txn (a ++ b) = match all_some txn a, all_some txn b with Some x, Some y => Some (x ++ y) | _, _ => None end.
  Proof.
    induction a as [|[t|] a IH]; simpl; [destruct (all_some txn b); reflexivity| |reflexivity]. rewrite IH.
    destruct (all_some txn a); [destruct (all_some txn b); reflexivity|reflexivity].
  Qed.
  Lemma all_some_ser (OK : serializes txn ser de) ts : all_some txn (map de (map ser ts)) = Some ts.
  Proof. induction ts as [|t ts IH]; simpl; [reflexivity|]. destruct (OK t) as (_ & _ & _ & ->). rewrite IH. reflexivity. Qed.
  Lemma create_ok (OK : serializes txn ser de) old reset txns s : create_file txn ser de author with_number old reset txns = Some s ->
    exists old_txns, genesis_of old = Some old_txns /\
    genesis_of s = Some ((if reset then [] else old_txns) ++ numbered txn author with_number (fun _ => 0) txns).
  Proof.
    unfold create_file. destruct (open_text old) as [s0|] eqn:O; [|discriminate]. destruct (readable txn de s0) eqn:R; [|discriminate].
    intros E. injection E as <-. apply open_text_ok in O as [O1 O2]. apply readable_genesis in R.
    unfold Genesis_Spec.genesis_of in *. rewrite O1 in R. destruct (all_some txn (map de (clean_lines old))) as [ot|] eqn:A; [|contradiction].
    exists ot. split; [reflexivity|].
    destruct (put_lines_clean (map ser (numbered txn author with_number (fun _ => 0) txns)) (if reset then [] else s0)) as [P _].
    - destruct reset; [left; reflexivity|exact O2].
    - intros v V. apply in_map_iff in V as (t & <- & _). destruct (OK t) as (A1 & A2 & A3 & _). auto.
    - rewrite P, map_app, all_some_app, (all_some_ser OK). destruct reset; [reflexivity|]. rewrite O1, A. reflexivity.
  Qed.
  Lemma create_fails old reset txns : create_file txn ser de author with_number old reset txns = None <-> length old = 1 \/ genesis_of old = None.
  Proof.
    unfold create_file. destruct (open_text old) as [s0|] eqn:O.
    - assert (L : length old <> 1) by (intros L; unfold open_text in O; rewrite L in O; discriminate).
      pose proof (open_text_ok _ _ O) as [O1 _]. pose proof (readable_genesis s0) as R. unfold Genesis_Spec.genesis_of in *. rewrite O1 in R.
      destruct (readable txn de s0); split; try discriminate; intros H.
      + destruct H as [H|H]; [contradiction|]. exfalso. apply (proj1 R eq_refl). exact H.
      + right. destruct (all_some txn (map de (clean_lines old))); [|reflexivity]. assert (false = true) by (apply R; discriminate). discriminate.
      + reflexivity.
    - split; [|reflexivity]. intros _. left. unfold open_text in O. destruct (length old) as [|[|n]]; [discriminate|reflexivity|discriminate].
  Qed.
  (** *** numbers *)
  Variable number : txn -> nat.
  Hypothesis WA : forall t n, author (with_number t n) = author t.
  Hypothesis WN : forall t n, number (with_number t n) = n.
  Lemma numbered_bound c ts : forall t, In t (numbered txn author with_number c ts) -> c (author t) < number t.
  Proof.
    revert c. induction ts as [|x ts IH]; intros c t I; simpl in I; [destruct I|]. destruct I as [<-|I]; [rewrite WA, WN; lia|].
    apply IH in I. destruct (Nat.eqb_spec (author t) (author x)) as [E|E]; [rewrite E; lia|exact I].
  Qed.
  Lemma numbered_distinct c ts : NoDup (map (fun t => (author t, number t)) (numbered txn author with_number c ts)).
  Proof.
    revert c. induction ts as [|x ts IH]; intros c; simpl; [constructor|]. constructor; [|apply IH].
    intros I. apply in_map_iff in I as (t & E & I). injection E as E1 E2. apply numbered_bound in I. rewrite WA in E1. rewrite WN in E2. rewrite E1, Nat.eqb_refl in I. lia.
  Qed.

  (** *** histories *)
  Notation step := (step txn de).
  Notation run := (run txn de).
  Definition Inv (s : list nat) (ts : list txn) (n : node txn) : Prop :=
    file txn n = Some s /\ (prefix txn ts (log txn n) \/ log txn n = [] /\ up txn n = false).
  Lemma inv_step s ts n o : genesis_of s = Some ts -> whole txn ts o -> Inv s ts n -> Inv s ts (step n o).
  Proof.
    intros G W (F & P). unfold Inv. destruct o as [cut| |t|x]; cbn [Genesis_Model.step] in *.
    - unfold start. destruct (up txn n) eqn:U; [split; [exact F|]; left; destruct P as [P|[_ P]]; [exact P|congruence]|].
      destruct (log txn n) as [|t l] eqn:L.
      + rewrite F. rewrite (adds_all _ _ G). destruct cut as [k|]; cbn [file log up].
        * split; [reflexivity|]. destruct W as [->|W]; [right; split; reflexivity|]. left. rewrite firstn_all2 by exact W. exists []. rewrite app_nil_r. reflexivity.
        * split; [reflexivity|]. left. exists []. rewrite app_nil_r. reflexivity.
      + cbn [file log up]. split; [exact F|]. left. destruct P as [P|[P _]]; [exact P|discriminate].
    - cbn [file log up]. split; [exact F|]. destruct P as [P|[P _]]; [left; exact P|right; split; [exact P|reflexivity]].
    - destruct (up txn n) eqn:U; [|split; [exact F|]; rewrite U; exact P]. cbn [file log up]. split; [exact F|]. left.
      destruct P as [(c & ->)|[_ P]]; [|congruence]. exists (c ++ [t]). rewrite <- app_assoc. reflexivity.
    - destruct W.
  Qed.
  Lemma inv_run s ts os : forall n, genesis_of s = Some ts -> Forall (whole txn ts) os -> Inv s ts n -> Inv s ts (run n os).
  Proof.
    induction os as [|o os IH]; intros n G W H; [exact H|]. inversion W as [|? ? W1 W2]; subst. cbn. apply IH; [exact G|exact W2|]. apply inv_step; assumption.
  Qed.
  (** what is in a ledger stays *)
  Lemma step_grows n o : log txn n <> [] -> prefix txn (log txn n) (log txn (step n o)).
  Proof.
    intros N. assert (R : prefix txn (log txn n) (log txn n)) by (exists []; rewrite app_nil_r; reflexivity).
    destruct o as [cut| |t|x]; cbn [Genesis_Model.step]; try exact R.
    - unfold start. destruct (up txn n); [exact R|]. destruct (log txn n) as [|y l] eqn:L; [contradiction|]. exact R.
    - destruct (up txn n); [|exact R]. exists [t]. reflexivity.
  Qed.
  Lemma run_grows os : forall n, log txn n <> [] -> prefix txn (log txn n) (log txn (run n os)).
  Proof.
    induction os as [|o os IH]; intros n N; [exists []; rewrite app_nil_r; reflexivity|].
    destruct (step_grows n o N) as (a & A). destruct (IH (step n o)) as (b & B).
    - rewrite A. destruct (log txn n); [contradiction|discriminate].
    - exists (a ++ b). change (run n (o :: os)) with (run (step n o) os). rewrite B, A, app_assoc. reflexivity.
  Qed.
End P.
