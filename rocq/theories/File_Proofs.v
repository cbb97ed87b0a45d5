(** Proofs about the log in one file. *)
From Coq Require Import List Arith Bool Lia.
Import ListNotations.
From Verif Require Import File_Model File_Spec.

(** ** Bytes *)
Lemma starts_spec p : forall s, starts p s = true <-> exists r, s = p ++ r.
Proof.
  induction p as [|x p IH]; intros s; cbn.
  - split; eauto.
  - destruct s as [|y s]; [split; [discriminate|intros [r H]; discriminate]|]. rewrite andb_true_iff, Nat.eqb_eq, IH. split.
    + intros [-> [r ->]]. eauto.
    + intros [r H]. injection H as -> ->. eauto.
Qed.
Lemma starts_short p : forall s, length s < length p -> starts p s = false.
Proof. intros s H. destruct (starts p s) eqn:E; [|reflexivity]. apply starts_spec in E. destruct E as [r ->]. rewrite app_length in H. lia. Qed.
Lemma starts_app p : forall s t, starts p s = true -> starts p (s ++ t) = true.
Proof. intros s t H. apply starts_spec in H. destruct H as [r ->]. apply starts_spec. exists (r ++ t). now rewrite app_assoc. Qed.
Lemma starts_cut p : forall s t, length p <= length s -> starts p (s ++ t) = starts p s.
Proof.
  induction p as [|x p IH]; intros s t H; [reflexivity|]. destruct s as [|y s]; cbn in *; [lia|]. rewrite IH by lia. reflexivity.
Qed.
Lemma bytes_eqb_eq x : forall y, bytes_eqb x y = true <-> x = y.
Proof.
  induction x as [|a x IH]; intros [|b y]; cbn; try (split; [discriminate|discriminate]); [tauto|].
  rewrite andb_true_iff, Nat.eqb_eq, IH. split; [intros [-> ->]; reflexivity|intros H; injection H; auto].
Qed.

Lemma app_split {A} : forall (a b c d : list A), a ++ b = c ++ d -> length a <= length c -> exists w, c = a ++ w /\ b = w ++ d.
Proof.
  induction a as [|x a IH]; intros b c d E L; cbn in *; [eauto|]. destruct c as [|y c]; cbn in *; [lia|]. injection E as <- E.
  destruct (IH b c d E) as (w & -> & ->); [lia|]. eauto.
Qed.
(** no occurrence starts inside [x] *)
Lemma apart_starts sep x1 x2 s : apart sep (x1 ++ x2) -> x2 <> [] -> starts sep (x2 ++ sep ++ s) = false.
Proof.
  intros H N. destruct (starts sep (x2 ++ sep ++ s)) eqn:E; [|reflexivity]. exfalso. rewrite app_assoc in E.
  rewrite starts_cut in E by (rewrite app_length; lia). apply starts_spec in E. destruct E as [r E].
  assert (r = []) as ->. { apply (H x1 r). rewrite <- app_assoc, E. reflexivity. }
  apply (f_equal (@length nat)) in E. rewrite !app_length in E. cbn in E. destruct x2; [congruence|cbn in E; lia].
Qed.
Lemma split_go_rec sep s : sep <> [] -> forall x x1 cur, apart sep (x1 ++ x) ->
  split_go sep 0 cur (x ++ sep ++ s) = (rev cur ++ x) :: split_go sep 0 [] s.
Proof.
  intros N. induction x as [|c x IH]; intros x1 cur H.
  - rewrite app_nil_r. cbn [app]. destruct sep as [|a sep]; [congruence|]. cbn [app split_go].
    assert (starts (a :: sep) (a :: sep ++ s) = true) as -> by (apply starts_spec; exists s; reflexivity). f_equal.
    cbn [length]. rewrite Nat.sub_succ, Nat.sub_0_r. clear. generalize (a :: sep). intros p. induction sep as [|b sep IH]; cbn; auto.
  - cbn [app split_go]. change (c :: x ++ sep ++ s) with ((c :: x) ++ sep ++ s). rewrite (apart_starts sep x1) by (auto; discriminate).
    rewrite (IH (x1 ++ [c])) by (rewrite <- app_assoc; exact H). cbn [rev]. rewrite <- app_assoc. reflexivity.
Qed.
(** [t] is the beginning of a record, not all of it *)
Definition torn (sep t : bytes) : Prop := exists x r, apart sep x /\ x ++ sep = t ++ r /\ r <> [].
Lemma torn_prefix sep a b : torn sep (a ++ b) -> torn sep a.
Proof. intros (x & r & H & E & N). exists x, (b ++ r). rewrite app_assoc. repeat split; auto. destruct b; [exact N|discriminate]. Qed.
Lemma torn_starts sep a t : torn sep (a ++ t) -> starts sep t = false.
Proof.
  intros (x & r & H & E & N). destruct (starts sep t) eqn:D; [|reflexivity]. exfalso. apply starts_spec in D. destruct D as [s ->].
  apply N. rewrite <- !app_assoc in E. apply H in E. now destruct (app_eq_nil _ _ E).
Qed.
Lemma split_go_torn sep : forall t a cur, torn sep (a ++ t) -> split_go sep 0 cur t = [rev cur ++ t].
Proof.
  induction t as [|c t IH]; intros a cur H; cbn [split_go].
  - now rewrite app_nil_r.
  - rewrite (torn_starts sep a) by exact H. rewrite (IH (a ++ [c])) by (rewrite <- app_assoc; exact H). cbn [rev]. now rewrite <- app_assoc.
Qed.
Notation recs sep := (map (fun x => x ++ sep)).
Lemma split_recs sep xs : sep <> [] -> Forall (apart sep) xs -> forall t, torn sep t -> split sep (concat (recs sep xs) ++ t) = xs ++ [t].
Proof.
  intros N. induction 1 as [|x xs Hx _ IH]; intros t Ht; cbn [map concat app].
  - apply (split_go_torn sep t []). exact Ht.
  - unfold split. rewrite <- !app_assoc. rewrite (split_go_rec sep _ N x []) by exact Hx. cbn [rev app]. f_equal. apply IH; auto.
Qed.
Lemma torn_nil sep x : sep <> [] -> apart sep x -> torn sep [].
Proof. intros N H. exists x, (x ++ sep). repeat split; auto. destruct x; [exact N|discriminate]. Qed.

(** where a cut of the file falls *)
Lemma cut_recs sep : forall xs t p q, sep <> [] -> Forall (apart sep) xs -> torn sep t -> concat (recs sep xs) ++ t = p ++ q ->
  exists ys zs t', xs = ys ++ zs /\ p = concat (recs sep ys) ++ t' /\ concat (recs sep zs) ++ t = t' ++ q /\ torn sep t'.
Proof.
  induction xs as [|x xs IH]; intros t p q N H Ht E.
  - exists [], [], p. cbn in *. subst t. repeat split; auto. now apply torn_prefix in Ht.
  - inversion H as [|? ? Hx Hxs]; subst. destruct (le_lt_dec (length (x ++ sep)) (length p)) as [L|L].
    + assert (exists p', p = (x ++ sep) ++ p') as [p' ->].
      { cbn [map concat] in E. rewrite <- (app_assoc (x ++ sep)) in E. destruct (app_split _ _ _ _ E L) as (w & -> & _). eauto. }
      cbn [map concat] in E. rewrite <- !app_assoc in E. do 2 apply app_inv_head in E.
      destruct (IH t p' q N Hxs Ht E) as (ys & zs & t' & -> & -> & E' & Ht'). exists (x :: ys), zs, t'. cbn [map concat app].
      rewrite <- !app_assoc. auto.
    + exists [], (x :: xs), p. split; [reflexivity|]. split; [reflexivity|]. split; [exact E|].
      exists x, (skipn (length p) (x ++ sep)). split; [exact Hx|]. cbn [map concat] in E. rewrite <- (app_assoc (x ++ sep)) in E.
      assert (firstn (length p) (x ++ sep) = p) as F.
      { apply (f_equal (firstn (length p))) in E. rewrite (firstn_app _ p q), firstn_all, Nat.sub_diag, firstn_O, app_nil_r in E.
        rewrite (firstn_app _ (x ++ sep)) in E.
        replace (length p - length (x ++ sep)) with 0 in E by lia. now rewrite firstn_O, app_nil_r in E. }
      split; [rewrite <- (firstn_skipn (length p) (x ++ sep)) at 1; rewrite F; reflexivity|].
      intros E0. apply (f_equal (@length nat)) in E0. rewrite skipn_length in E0. cbn in E0. lia.
Qed.
Lemma keep_torn b t : keep (b ++ t) t = match t with [] => b | _ => t end.
Proof.
  destruct t as [|c t]; [apply app_nil_r|]. unfold keep. rewrite app_length. replace (length b + length (c :: t) - length (c :: t)) with (length b) by lia.
  now rewrite skipn_app, skipn_all, Nat.sub_diag.
Qed.
Notation torn_line t := (match t with [] => [] | _ => [t] end).
Lemma all_of sep zs (t t' : bytes) : sep <> [] -> Forall (apart sep) zs -> torn sep t -> torn sep t' -> concat (recs sep zs) ++ t = t' -> zs = [] /\ t = t'.
Proof.
  intros N H Ht Ht' E. destruct zs as [|z zs]; [auto|]. exfalso. inversion H; subst.
  assert (starts sep (sep ++ concat (recs sep zs) ++ t) = true) as E1 by (apply starts_spec; eauto).
  cbn [map concat] in Ht'. rewrite <- !app_assoc in Ht'. rewrite (torn_starts sep z) in E1 by exact Ht'. discriminate.
Qed.

(** ** Reading *)
Lemma lines_go_ok sep : sep <> [] -> forall chunks xs t b lst, chunks <> [] -> Forall (apart sep) xs -> torn sep t -> torn sep b ->
  b ++ concat chunks = concat (recs sep xs) ++ t ->
  (forall c1 c2 ys zs, chunks = c1 ++ c2 -> c1 <> [] -> c2 <> [] -> xs = ys ++ zs -> ys <> [] -> length (b ++ concat c1) <> length (concat (recs sep ys))) ->
  lines_go sep b lst chunks = xs ++ torn_line t.
Proof.
  intros N. induction chunks as [|c cs IH]; intros xs t b lst Hc H Ht Hb E Hu; [congruence|]. clear Hc. cbn [concat] in E. rewrite app_assoc in E.
  destruct (cut_recs sep xs t (b ++ c) (concat cs) N H Ht (eq_sym E)) as (ys & zs & t' & -> & Ep & Eq & Ht').
  apply Forall_app in H. destruct H as [Hy Hz]. cbn [lines_go]. rewrite Ep, split_recs by auto.
  rewrite removelast_last, last_last, keep_torn, <- app_assoc. f_equal. destruct cs as [|c' cs].
  - cbn [concat] in Eq. rewrite app_nil_r in Eq. destruct (all_of sep zs t t' N Hz Ht Ht' Eq) as [-> ->]. reflexivity.
  - set (cs' := c' :: cs) in *. destruct t' as [|x t'].
    + destruct ys as [|y ys].
      * apply IH; auto; [discriminate|]. intros c1 c2 ws zs' Ec N1 N2 Ez N3 El. apply (Hu (c :: c1) c2 ws zs'); auto; try discriminate.
        -- cbn [app]. now f_equal.
        -- cbn [concat]. rewrite app_assoc, Ep. exact El.
      * exfalso. apply (Hu [c] cs' (y :: ys) zs); auto; try discriminate. cbn [concat]. now rewrite app_nil_r, Ep, app_nil_r.
    + apply IH; auto; [discriminate|]. intros c1 c2 ws zs' Ec N1 N2 -> N3 El. apply (Hu (c :: c1) c2 (ys ++ ws) zs'); auto; try discriminate.
      * cbn [app]. now f_equal.
      * now rewrite app_assoc.
      * intros E0. apply app_eq_nil in E0. tauto.
      * cbn [concat]. rewrite app_assoc, Ep, map_app, concat_app, <- app_assoc. rewrite !app_length in *. lia.
Qed.
(** never too few *)
Lemma lines_go_ge sep : sep <> [] -> forall chunks ws xs t b lst, chunks <> [] -> Forall (apart sep) ws -> Forall (apart sep) xs -> torn sep t -> torn sep b ->
  b ++ concat chunks = concat (recs sep xs) ++ t ->
  length ws + length xs <= length (lines_go sep (concat (recs sep ws) ++ b) lst chunks).
Proof.
  intros N. induction chunks as [|c cs IH]; intros ws xs t b lst Hc Hw H Ht Hb E; [congruence|]. clear Hc. cbn [concat] in E. rewrite app_assoc in E.
  destruct (cut_recs sep xs t (b ++ c) (concat cs) N H Ht (eq_sym E)) as (ys & zs & t' & -> & Ep & Eq & Ht').
  apply Forall_app in H. destruct H as [Hy Hz]. cbn [lines_go]. rewrite <- app_assoc, Ep, app_assoc, <- concat_app, <- map_app.
  rewrite split_recs by (auto; apply Forall_app; auto). rewrite removelast_last, last_last, keep_torn, !app_length. destruct cs as [|c' cs].
  - cbn [concat] in Eq. rewrite app_nil_r in Eq. destruct (all_of sep zs t t' N Hz Ht Ht' Eq) as [-> _]. cbn. lia.
  - destruct t' as [|x t'].
    + specialize (IH (ws ++ ys) zs t [] []). rewrite app_nil_r in IH. cbn [app] in Eq. rewrite app_length in IH.
      assert (c' :: cs <> []) as N' by discriminate. specialize (IH N' ltac:(apply Forall_app; auto) Hz Ht Ht' (eq_sym Eq)). lia.
    + specialize (IH [] zs t (x :: t') (x :: t')). cbn [map concat app length] in IH.
      assert (c' :: cs <> []) as N' by discriminate. specialize (IH N' (Forall_nil _) Hz Ht Ht' (eq_sym Eq)). lia.
Qed.
(** too many if a record ends where a read ends *)
Lemma lines_go_gt sep : sep <> [] -> forall chunks xs t b lst c1 c2 ys zs, Forall (apart sep) xs -> torn sep t -> torn sep b ->
  b ++ concat chunks = concat (recs sep xs) ++ t ->
  chunks = c1 ++ c2 -> c1 <> [] -> c2 <> [] -> xs = ys ++ zs -> ys <> [] -> length (b ++ concat c1) = length (concat (recs sep ys)) ->
  length xs < length (lines_go sep b lst chunks).
Proof.
  intros N. induction chunks as [|c cs IH]; intros xs t b lst c1 c2 ys0 zs0 H Ht Hb E Ec N1 N2 Ex N3 El; [destruct c1; [congruence|discriminate]|].
  cbn [concat] in E. rewrite app_assoc in E.
  destruct (cut_recs sep xs t (b ++ c) (concat cs) N H Ht (eq_sym E)) as (ys & zs & t' & Exs & Ep & Eq & Ht').
  pose proof H as H0. rewrite Exs in H. apply Forall_app in H. destruct H as [Hy Hz]. cbn [lines_go]. rewrite Ep, split_recs by auto.
  rewrite removelast_last, last_last, keep_torn, app_length.
  destruct c1 as [|c0 c1]; [congruence|]. injection Ec as <- Ec.
  assert (cs <> []) as Ncs. { subst cs. destruct c1; [exact N2|discriminate]. }
  assert (forall b', torn sep b' -> (ys = [] \/ b' <> []) -> b' = t' -> length zs < length (lines_go sep b' t' cs) \/ (c1 = [] /\ ys <> [] /\ t' = [])) as Step.
  { intros b' Hb' Hn ->. cbn [concat] in El. rewrite app_assoc, Ep, <- app_assoc, app_length in El.
    destruct (le_lt_dec (length ys0) (length ys)) as [L|L].
    - (* the boundary is not after this cut *)
      assert (exists w, ys = ys0 ++ w) as [w Ew].
      { rewrite Ex in Exs. destruct (app_split _ _ _ _ Exs L) as (w & -> & _). eauto. }
      subst ys. rewrite map_app, concat_app, !app_length in El.
      assert (length (concat c1) = 0 /\ length t' = 0) as [L1 L2] by lia. apply length_zero_iff_nil in L2. subst t'.
      destruct Hn as [Hn|Hn]; [|congruence]. apply app_eq_nil in Hn. tauto.
    - left. assert (exists w, ys0 = ys ++ w) as [w Ew].
      { rewrite Exs in Ex. destruct (app_split _ _ _ _ Ex) as (w & -> & _); [lia|]. eauto. }
      subst ys0. rewrite Exs, <- app_assoc in Ex. apply app_inv_head in Ex. assert (w <> []) as Nw by (intros ->; rewrite app_nil_r in L; lia).
      rewrite map_app, concat_app, app_length in El.
      assert (c1 <> []) as Nc1.
      { intros ->. cbn [concat] in El. rewrite ?app_nil_r, ?app_length in El. cbn [length] in El.
        (* then t' would be a whole number of records *)
        assert (t' = concat (recs sep w)) as ->.
        { rewrite Ex, map_app, concat_app, <- app_assoc in Eq. assert (length (concat (recs sep w)) <= length t') as L3 by lia.
          destruct (app_split _ _ _ _ Eq L3) as (u & Eu & _). rewrite Eu in El. rewrite !app_length in El.
          assert (u = []) as -> by (apply length_zero_iff_nil; lia). now rewrite app_nil_r in Eu. }
        rewrite Ex in Hz. apply Forall_app in Hz. destruct Hz as [Hw _]. destruct w as [|z w]; [congruence|].
        inversion Hw; subst. assert (torn sep []) as Tn by (eapply torn_nil; eauto).
        destruct (all_of sep (z :: w) [] (concat (recs sep (z :: w))) N Hw Tn Ht' (app_nil_r _)) as [D _]. discriminate. }
      apply (IH zs t t' t' c1 c2 w zs0); auto. rewrite app_length in *. lia. }
  destruct t' as [|x t'].
  - destruct ys as [|y ys].
    + destruct (Step [] Ht' (or_introl eq_refl) eq_refl) as [Hs|(_ & F & _)]; [|congruence]. rewrite Exs. cbn [app map concat length]. exact Hs.
    + pose proof (lines_go_ge sep N cs (y :: ys) zs t [] [] Ncs Hy Hz Ht Ht' (eq_sym Eq)) as G. rewrite (app_nil_r (concat (recs sep (y :: ys)))) in G. rewrite Exs, app_length.
      assert (0 < length (y :: ys)) as P by (cbn; lia). lia.
  - assert (ys = [] \/ x :: t' <> []) as P by (right; discriminate). destruct (Step (x :: t') Ht' P eq_refl) as [Hs|(_ & _ & F)]; [|discriminate].
    rewrite Exs, app_length. lia.
Qed.

(** ** The reads of a file *)
Lemma chunks_concat buf : 0 < buf -> forall fuel f, length f < fuel -> concat (file_chunks buf fuel f) = f.
Proof.
  intros B. induction fuel as [|n IH]; intros f H; [lia|]. cbn [file_chunks concat]. destruct (Nat.ltb_spec (length f) buf) as [L|L]; cbn [concat].
  - rewrite app_nil_r. apply firstn_all2. lia.
  - rewrite IH by (rewrite skipn_length; lia). apply firstn_skipn.
Qed.
Lemma chunks_not_nil buf f fuel : file_chunks buf (S fuel) f <> [].
Proof. discriminate. Qed.
(** every read but the last is full *)
Lemma chunks_full buf : forall fuel f c1 c2, file_chunks buf fuel f = c1 ++ c2 -> c2 <> [] -> length (concat c1) = length c1 * buf.
Proof.
  induction fuel as [|n IH]; intros f c1 c2 E N; cbn [file_chunks] in E.
  - symmetry in E. apply app_eq_nil in E. tauto.
  - destruct c1 as [|c c1]; [reflexivity|]. injection E as <- E. destruct (Nat.ltb_spec (length f) buf) as [L|L].
    + symmetry in E. apply app_eq_nil in E. tauto.
    + cbn [concat length]. rewrite app_length, (IH _ _ _ E N), firstn_length. lia.
Qed.
Lemma chunks_count buf : 0 < buf -> forall q fuel f, q * buf <= length f -> length f < fuel -> q < length (file_chunks buf fuel f).
Proof.
  intros B. induction q as [|q IH]; intros fuel f H L; (destruct fuel as [|n]; [lia|]); cbn [file_chunks length]; [lia|].
  destruct (Nat.ltb_spec (length f) buf) as [L1|L1]; [lia|]. specialize (IH n (skipn buf f)). rewrite skipn_length in IH. lia.
Qed.
Lemma lines_ok buf sep xs t : 0 < buf -> sep <> [] -> Forall (apart sep) xs -> torn sep t ->
  (forall ys zs, xs = ys ++ zs -> ys <> [] -> length (concat (recs sep ys)) mod buf <> 0) ->
  lines buf sep (concat (recs sep xs) ++ t) = xs ++ torn_line t.
Proof.
  intros B N H Ht Hu. unfold lines. apply lines_go_ok; auto.
  - discriminate.
  - now apply (torn_prefix sep [] t).
  - cbn [app]. apply chunks_concat; [exact B|lia].
  - intros c1 c2 ys zs Ec N1 N2 E N3 El. apply (Hu ys zs E N3). cbn [app] in El. rewrite <- El, (chunks_full _ _ _ _ _ Ec N2). apply Nat.mod_mul. lia.
Qed.
Lemma lines_twice buf sep xs t ys zs : 0 < buf -> sep <> [] -> Forall (apart sep) xs -> torn sep t ->
  xs = ys ++ zs -> ys <> [] -> length (concat (recs sep ys)) mod buf = 0 ->
  length xs < length (lines buf sep (concat (recs sep xs) ++ t)).
Proof.
  intros B N H Ht E N3 M. unfold lines. set (f := concat (recs sep xs) ++ t). set (cs := file_chunks buf (S (length f)) f).
  apply Nat.mod_divides in M; [|lia]. destruct M as [q M]. rewrite Nat.mul_comm in M.
  assert (0 < length (concat (recs sep ys))) as P.
  { destruct ys as [|y ys]; [congruence|]. cbn [map concat]. rewrite !app_length. destruct sep; [congruence|cbn; lia]. }
  assert (q * buf <= length f) as Lq. { unfold f. rewrite E, map_app, concat_app, !app_length. lia. }
  pose proof (chunks_count buf B q (S (length f)) f Lq (Nat.lt_succ_diag_r _)) as Cq. fold cs in Cq.
  assert (cs = firstn q cs ++ skipn q cs) as Ec by (symmetry; apply firstn_skipn).
  assert (skipn q cs <> []) as N2. { intros E0. apply (f_equal (@length _)) in E0. rewrite skipn_length in E0. cbn [length] in E0. lia. }
  assert (firstn q cs <> []) as N1. { intros E0. apply (f_equal (@length _)) in E0. rewrite firstn_length, Nat.min_l in E0 by lia. cbn [length] in E0. rewrite E0 in M. lia. }
  apply (lines_go_gt sep N cs xs t [] [] (firstn q cs) (skipn q cs) ys zs); auto.
  - now apply (torn_prefix sep [] t).
  - cbn [app]. apply chunks_concat; [exact B|unfold f; lia].
  - cbn [app]. rewrite (chunks_full _ _ _ _ _ Ec N2), firstn_length, Nat.min_l by lia. now symmetry.
Qed.

(** ** Histories *)
Definition body (c : cfg) (r : bytes * bytes) : bytes := if line_no c then snd r else fst r ++ delim c ++ snd r.
Lemma record_body c r : record_of c (fst r) (snd r) = body c r ++ line_sep c.
Proof. reflexivity. Qed.
Lemma extent_body c l : extent c l = length (concat (recs (line_sep c) (map (body c) l))).
Proof. unfold extent. rewrite map_map. reflexivity. Qed.
Lemma run_file c os : usable c -> no_crash os -> run c os = concat (recs (line_sep c) (map (body c) (logged os))).
Proof.
  intros (_ & _ & Hh & _). unfold run, logged. induction os as [|o os IH] using rev_ind; intros H; [reflexivity|].
  rewrite !fold_left_app. cbn [fold_left]. rewrite IH by (intros k v n F; apply (H k v n); apply in_app_iff; now left).
  destruct o as [k v|k v n|]; cbn [step put_by].
  - rewrite !map_app, concat_app. cbn [map concat]. unfold put, body. rewrite Hh. cbn [fst snd]. rewrite app_nil_r.
    destruct (line_no c); cbn [fst]; now rewrite <- !app_assoc.
  - exfalso. apply (H k v n). apply in_app_iff. right. now left.
  - reflexivity.
Qed.
Lemma plain_body c r : plain c r -> apart (line_sep c) (body c r).
Proof. unfold plain, body. destruct (line_no c); tauto. Qed.
Lemma bodies c l : Forall (plain c) l -> Forall (apart (line_sep c)) (map (body c) l).
Proof. induction 1; cbn; constructor; auto. now apply plain_body. Qed.
Lemma uneven_body c l ys zs : uneven c l -> map (body c) l = ys ++ zs -> ys <> [] -> length (concat (recs (line_sep c) ys)) mod buf c <> 0.
Proof.
  intros H E N. apply map_eq_app in E. destruct E as (l1 & l2 & -> & <- & <-). rewrite <- extent_body. apply (H l1 l2); auto.
  intros ->. now apply N.
Qed.
Lemma apart_nil sep : apart sep [].
Proof.
  intros a b E. cbn in E. apply (f_equal (@length nat)) in E. rewrite !app_length in E. apply length_zero_iff_nil. lia.
Qed.
Lemma run_lines c os : usable c -> no_crash os -> Forall (plain c) (logged os) -> uneven c (logged os) ->
  lines (buf c) (line_sep c) (run c os) = map (body c) (logged os).
Proof.
  intros U N H Hu. rewrite (run_file c os U N). destruct U as (Us & _ & _ & B).
  pose proof (lines_ok (buf c) (line_sep c) (map (body c) (logged os)) [] B Us (bodies c _ H)) as L. rewrite !app_nil_r in L. apply L.
  - eapply torn_nil; [exact Us|apply apart_nil].
  - intros ys zs E Ny. eapply uneven_body; eauto.
Qed.
Lemma torn_firstn sep x n : apart sep x -> n < length (x ++ sep) -> torn sep (firstn n (x ++ sep)).
Proof.
  intros H L. exists x, (skipn n (x ++ sep)). split; [exact H|]. split; [now rewrite firstn_skipn|].
  intros E. apply (f_equal (@length nat)) in E. rewrite skipn_length in E. cbn in E. lia.
Qed.
(** after a crash in a write *)
Lemma crash_lines c os k v n : usable c -> no_crash os -> Forall (plain c) (logged os) -> uneven c (logged os) -> plain c (k, v) ->
  0 < n < length (record_of c k v) ->
  lines (buf c) (line_sep c) (run c (os ++ [Crash k v n])) = map (body c) (logged os) ++ [firstn n (record_of c k v)].
Proof.
  intros U N H Hu Hp Hn. unfold run. rewrite fold_left_app. cbn [fold_left step]. fold (run c os). rewrite (run_file c os U N). destruct U as (Us & _ & _ & B).
  pose proof (lines_ok (buf c) (line_sep c) (map (body c) (logged os)) (firstn n (record_of c k v)) B Us (bodies c _ H)) as L.
  change (record_of c k v) with (body c (k, v) ++ line_sep c) in *. rewrite L.
  - destruct (firstn n (body c (k, v) ++ line_sep c)) eqn:E; [|reflexivity]. apply (f_equal (@length nat)) in E. rewrite firstn_length in E. cbn in E. lia.
  - apply torn_firstn; [now apply plain_body|lia].
  - intros ys zs E Ny. eapply uneven_body; eauto.
Qed.

(** ** Keys *)
Lemma split1_go_ok sep : sep <> [] -> forall x x1 cur s, apart sep (x1 ++ x) -> split1_go sep cur (x ++ sep ++ s) = Some (rev cur ++ x, s).
Proof.
  intros N. induction x as [|c x IH]; intros x1 cur s H.
  - rewrite app_nil_r. cbn [app]. destruct sep as [|a sep]; [congruence|]. cbn [app split1_go].
    assert (starts (a :: sep) (a :: sep ++ s) = true) as -> by (apply starts_spec; exists s; reflexivity).
    change (a :: sep ++ s) with ((a :: sep) ++ s). rewrite skipn_app, skipn_all, Nat.sub_diag. reflexivity.
  - cbn [app split1_go]. change (c :: x ++ sep ++ s) with ((c :: x) ++ sep ++ s). rewrite (apart_starts sep x1) by (auto; discriminate).
    rewrite (IH (x1 ++ [c])) by (rewrite <- app_assoc; exact H). cbn [rev]. rewrite <- app_assoc. reflexivity.
Qed.
Lemma parse_body c r : usable c -> line_no c = false -> plain c r -> parse c (body c r) = Some r.
Proof.
  intros (_ & Nd & _) E H. unfold plain, body, parse in *. rewrite E in *. destruct H as [_ H]. destruct r as [k v]. cbn [fst snd] in *.
  unfold split1. rewrite (split1_go_ok (delim c) Nd k []) by exact H. reflexivity.
Qed.
Lemma iter_keys_all c l start : usable c -> line_no c = false -> Forall (plain c) l ->
  iter_keys c start None None (map (body c) l) = (filter (fun r => negb match start with Some b => bytes_ltb (fst r) b | None => false end) l, Complete).
Proof.
  intros U E. induction 1 as [|[k v] l Hr _ IH]; [reflexivity|]. cbn [map iter_keys]. rewrite (parse_body c (k, v)) by auto. cbn [prefix_ok]. rewrite IH.
  cbn [filter fst]. destruct start as [b|]; [|reflexivity]. now destruct (bytes_ltb k b).
Qed.
Lemma last_of_spec {K V} (eqb : K -> K -> bool) (H : forall x y, eqb x y = true <-> x = y) k (l : list (K * V)) :
  match last_of eqb k l with Some v => newest l k v | None => ~ In k (map fst l) end.
Proof.
  unfold last_of. induction l as [|[k' v] l IH] using rev_ind; [intros []|]. rewrite fold_left_app. cbn [fold_left fst snd].
  destruct (eqb k' k) eqn:E.
  - apply H in E. subst k'. exists l, []. split; [reflexivity|intros []].
  - assert (k' <> k) as D by (intros ->; rewrite (proj2 (H k k) eq_refl) in E; discriminate).
    destruct (fold_left _ l None) as [w|].
    + destruct IH as (l1 & l2 & -> & Hn). exists l1, (l2 ++ [(k', v)]). split; [now rewrite <- app_assoc|].
      rewrite map_app, in_app_iff. cbn. intuition.
    + rewrite map_app, in_app_iff. cbn. intuition.
Qed.
Lemma newest_unique {K V} (l : list (K * V)) k v w : newest l k v -> newest l k w -> v = w.
Proof.
  intros (l1 & l2 & -> & H) (l3 & l4 & E & H'). revert l3 E. induction l1 as [|x l1 IH]; intros l3 E.
  - destruct l3 as [|y l3]; cbn in E; injection E as E1 E2; [congruence|]. exfalso. apply H. rewrite E2, map_app. apply in_app_iff. right. now left.
  - destruct l3 as [|y l3]; cbn in E; injection E as E1 E2; [|eauto]. exfalso. apply H'. rewrite <- E2, map_app. apply in_app_iff. right. now left.
Qed.
(** ** Numbers *)
Lemma iter_nos_spec start stop : forall ls i,
  iter_nos start stop i ls = filter (fun x => match start with Some b => b <=? fst x | None => true end && match stop with Some e => fst x <=? e | None => true end)
                                    (combine (seq i (length ls)) ls).
Proof.
  induction ls as [|l ls IH]; intros i; [reflexivity|]. cbn [iter_nos length seq combine filter fst].
  destruct stop as [e|].
  - destruct (Nat.ltb_spec e i) as [L|L].
    + destruct (Nat.leb_spec i e) as [L'|_]; [lia|]. rewrite andb_false_r.
      assert (forall m j, e < j -> filter (fun x : nat * bytes => match start with Some b => b <=? fst x | None => true end && (fst x <=? e)) (combine (seq j m) ls) = []) as F.
      { clear -L. intros m. revert ls. induction m as [|m IHm]; intros ls j Hj; [reflexivity|]. destruct ls as [|x ls]; [reflexivity|]. cbn [seq combine filter fst].
        destruct (Nat.leb_spec j e) as [L'|_]; [lia|]. rewrite andb_false_r. apply IHm. lia. }
      now rewrite F by lia.
    + destruct (Nat.leb_spec i e) as [_|L']; [|lia]. rewrite andb_true_r, IH. now destruct (match start with Some b => b <=? i | None => true end).
  - rewrite andb_true_r, IH. now destruct (match start with Some b => b <=? i | None => true end).
Qed.
