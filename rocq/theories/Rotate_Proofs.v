From Coq Require Import List Arith Bool Lia.
From Verif Require Import Rotate_Model Rotate_Spec.
Import ListNotations.

Definition fits_job (fs : list file) (j : job) : Prop := forall f, In f fs -> f_idx f = j_idx j ->
  match j_stage j with
  | 0 => plain f <> None
  | 1 => plain f = Some (j_data j)
  | _ => plain f = Some (j_data j) /\ packed f = Some (Some (j_data j))
  end.
Record good (d : dir) : Prop := Good {
  g_seq : exists a, map f_idx (files d) = seq (S a) (length (files d)) /\ a + length (files d) = max_index d;
  g_zero : files d = [] -> max_index d = 0;
  g_read : forall f, In f (files d) -> contents f <> None;
  g_jobs : forall j, In j (jobs d) -> j_idx j <= max_index d /\ fits_job (files d) j;
  g_once : NoDup (map j_idx (jobs d)) }.

Lemma good_init : good init.
Proof. split; cbn; try tauto; try (now constructor). now exists 0. Qed.
Lemma same_list : forall (g : file -> file) fs, (forall f, f_idx (g f) = f_idx f) -> map f_idx (map g fs) = map f_idx fs.
Proof. intros g fs H. rewrite map_map. apply map_ext. exact H. Qed.
Lemma idx_le : forall fs a, map f_idx fs = seq (S a) (length fs) -> forall f, In f fs -> a < f_idx f <= a + length fs.
Proof. intros fs a H f Hf. apply (in_map f_idx) in Hf. rewrite H in Hf. apply in_seq in Hf. lia. Qed.
Lemma idx_inj : forall fs f g, NoDup (map f_idx fs) -> In f fs -> In g fs -> f_idx f = f_idx g -> f = g.
Proof.
  intros fs f g. induction fs as [|h fs IH]; intros N Hf Hg E; [destruct Hf|]. cbn [map] in N. inversion N as [|? ? A B]; subst.
  destruct Hf as [->|Hf], Hg as [->|Hg]; [reflexivity | | | now apply IH].
  - exfalso. apply A. rewrite E. now apply in_map.
  - exfalso. apply A. rewrite <- E. now apply in_map.
Qed.
Lemma in_drop : forall i j js, In j (drop_job i js) <-> In j js /\ j_idx j <> i.
Proof. intros. unfold drop_job. rewrite filter_In. rewrite negb_true_iff, Nat.eqb_neq. reflexivity. Qed.
Lemma nodup_drop : forall i js, NoDup (map j_idx js) -> NoDup (map j_idx (drop_job i js)).
Proof.
  intros i js. induction js as [|j js IH]; intros N; [constructor|]. cbn [map] in N. inversion N as [|? ? A B]; subst. cbn [drop_job filter].
  destruct (negb (j_idx j =? i)); [|now apply IH]. cbn [map]. constructor; [|now apply IH]. intros X. apply A. apply in_map_iff in X as (k & E & K).
  apply in_drop in K as [K _]. rewrite <- E. now apply in_map.
Qed.
Lemma not_in_drop : forall i js, ~ In i (map j_idx (drop_job i js)).
Proof. intros i js X. apply in_map_iff in X as (k & E & K). apply in_drop in K as [_ K]. contradiction. Qed.

(** changing the file that a process works on *)
Lemma good_change : forall d i (g : file -> file) js' d',
  good d -> (forall f, f_idx (g f) = f_idx f) -> (forall f, f_idx f <> i -> g f = f) ->
  (forall f, In f (files d) -> f_idx f = i -> contents (g f) <> None) ->
  (forall j, In j js' -> j_idx j <> i -> In j (jobs d)) ->
  (forall j, In j js' -> j_idx j = i -> i <= max_index d /\ fits_job (map g (files d)) j) -> NoDup (map j_idx js') ->
  d' = Dir (map g (files d)) (base d) js' (max_index d) (compressor d) -> good d'.
Proof.
  intros d i g js' d' [S1 S2 S3 S4 S5] G1 G2 G3 J1 J2 N ->. split; cbn [files base jobs max_index compressor].
  - destruct S1 as (a & A & B). exists a. rewrite same_list, map_length by exact G1. now split.
  - intros E. apply S2. destruct (files d); [reflexivity | discriminate].
  - intros f Hf. apply in_map_iff in Hf as (f0 & <- & Hf). destruct (Nat.eq_dec (f_idx f0) i) as [E|E]; [now apply G3|]. rewrite G2 by exact E. now apply S3.
  - intros j Hj. destruct (Nat.eq_dec (j_idx j) i) as [E|E]; [destruct (J2 j Hj E); rewrite E; now split|].
    destruct (S4 j (J1 j Hj E)) as [L F]. split; [exact L|]. intros f Hf Ef. apply in_map_iff in Hf as (f0 & <- & Hf).
    rewrite G1 in Ef. assert (X : f_idx f0 <> i) by congruence. rewrite (G2 f0 X). exact (F f0 Hf Ef).
  - exact N.
Qed.
Lemma nodup_files : forall d, good d -> NoDup (map f_idx (files d)).
Proof. intros d [(a & A & _) _ _ _ _]. rewrite A. apply seq_NoDup. Qed.
Lemma source_in : forall i fs c, source i fs = Some c -> exists f, In f fs /\ f_idx f = i /\ plain f = Some c.
Proof.
  intros i fs c H. unfold source in H. destruct (find _ fs) as [f|] eqn:E; [|discriminate]. apply find_some in E as [A B]. apply Nat.eqb_eq in B. now exists f.
Qed.
Lemma work_good : forall i d, good d -> good (work i d) /\ map text (files (work i d)) = map text (files d) /\ base (work i d) = base d
  /\ max_index (work i d) = max_index d /\ compressor (work i d) = compressor d /\ length (files (work i d)) = length (files d)
  /\ (forall j, In j (map j_idx (jobs (work i d))) -> In j (map j_idx (jobs d))).
Proof.
  intros i d G. unfold work. destruct (find _ (jobs d)) as [j|] eqn:E; [|split; [exact G|]; auto 8]. apply find_some in E as [Hj Ej]. apply Nat.eqb_eq in Ej.
  destruct (g_jobs _ G j Hj) as [L F]. pose proof (nodup_files d G) as NF. rewrite Ej in L.
  assert (Hi : In i (map j_idx (jobs d))) by (rewrite <- Ej; now apply in_map).
  assert (JL : forall c n k, In k (map j_idx (Job i c n :: drop_job i (jobs d))) -> In k (map j_idx (jobs d))).
  { intros c n k [<-|Hk]; [exact Hi|]. apply in_map_iff in Hk as (x & <- & Hx). apply in_drop in Hx as [Hx _]. now apply in_map. }
  assert (JD : forall k, In k (map j_idx (drop_job i (jobs d))) -> In k (map j_idx (jobs d))) by (intros k Hk; apply (JL [] 0); now right).
  assert (TX : forall g : file -> file, (forall f, In f (files d) -> contents (g f) = contents f) -> map text (map g (files d)) = map text (files d)).
  { intros g H. rewrite map_map. apply map_ext_in. intros f Hf. unfold text. now rewrite H. }
  assert (ND : NoDup (map j_idx (drop_job i (jobs d)))) by (apply nodup_drop, G).
  assert (ND2 : forall c n, NoDup (map j_idx (Job i c n :: drop_job i (jobs d)))) by (intros c n; cbn [map j_idx]; constructor; [apply not_in_drop | exact ND]).
  destruct (j_stage j) as [|[|st]] eqn:St.
  - destruct (source i (files d)) as [c|] eqn:Sc.
    + apply source_in in Sc as (f0 & Hf0 & Ef0 & P0).
      assert (C : forall f, In f (files d) -> f_idx f = i -> plain f = Some c).
      { intros f Hf Ef. assert (f = f0) as -> by (apply (idx_inj (files d)); congruence || assumption). exact P0. }
      assert (CT : forall f, In f (files d) -> contents (if f_idx f =? i then File i (plain f) (Some None) else f) = contents f).
      { intros f Hf. destruct (Nat.eqb_spec (f_idx f) i) as [Ef|]; [|reflexivity]. unfold contents. cbn [plain]. now rewrite (C f Hf Ef). }
      split; [|cbn [files base max_index compressor jobs]; unfold set_packed; rewrite map_length; split; [now apply TX|]; repeat split; auto; apply JL].
      eapply (good_change d i (fun f => if f_idx f =? i then File i (plain f) (Some None) else f) (Job i c 1 :: drop_job i (jobs d))); [exact G | | | | | | apply ND2 | reflexivity].
      * intros f. destruct (Nat.eqb_spec (f_idx f) i); [cbn; congruence | reflexivity].
      * intros f Nf. destruct (Nat.eqb_spec (f_idx f) i); [contradiction | reflexivity].
      * intros f Hf Ef. rewrite CT by exact Hf. now apply (g_read _ G).
      * intros k [<-|Hk] Nk; [now cbn in Nk|]. now apply in_drop in Hk as [Hk _].
      * intros k [<-|Hk] Ek; [|apply in_drop in Hk as [_ Hk]; contradiction]. split; [exact L|]. intros f Hf Ef. cbn [j_idx j_stage j_data] in *.
        apply in_map_iff in Hf as (f1 & <- & Hf). destruct (Nat.eqb_spec (f_idx f1) i) as [E1|E1]; [cbn [plain]; now apply C | contradiction].
    + split; [|cbn [files base max_index compressor jobs]; repeat split; auto].
      eapply (good_change d i (fun f => f) (drop_job i (jobs d))); [exact G | reflexivity | reflexivity | | | | exact ND | now rewrite map_id].
      * intros f Hf _. now apply (g_read _ G).
      * intros k Hk _. now apply in_drop in Hk as [Hk _].
      * intros k Hk Ek. apply in_drop in Hk as [_ Hk]. contradiction.
  - assert (C : forall f, In f (files d) -> f_idx f = i -> plain f = Some (j_data j)).
    { intros f Hf Ef. specialize (F f Hf). rewrite St in F. apply F. congruence. }
    assert (CT : forall f, In f (files d) -> contents (if f_idx f =? i then File i (plain f) (Some (Some (j_data j))) else f) = contents f).
    { intros f Hf. destruct (Nat.eqb_spec (f_idx f) i) as [Ef|]; [|reflexivity]. unfold contents. cbn [plain]. now rewrite (C f Hf Ef). }
    split; [|cbn [files base max_index compressor jobs]; unfold set_packed; rewrite map_length; split; [now apply TX|]; repeat split; auto; apply JL].
    eapply (good_change d i (fun f => if f_idx f =? i then File i (plain f) (Some (Some (j_data j))) else f) (Job i (j_data j) 2 :: drop_job i (jobs d))); [exact G | | | | | | apply ND2 | reflexivity].
    + intros f. destruct (Nat.eqb_spec (f_idx f) i); [cbn; congruence | reflexivity].
    + intros f Nf. destruct (Nat.eqb_spec (f_idx f) i); [contradiction | reflexivity].
    + intros f Hf Ef. rewrite CT by exact Hf. now apply (g_read _ G).
    + intros k [<-|Hk] Nk; [now cbn in Nk|]. now apply in_drop in Hk as [Hk _].
    + intros k [<-|Hk] Ek; [|apply in_drop in Hk as [_ Hk]; contradiction]. split; [exact L|]. intros f Hf Ef. cbn [j_idx j_stage j_data] in *.
      apply in_map_iff in Hf as (f1 & <- & Hf). destruct (Nat.eqb_spec (f_idx f1) i) as [E1|E1]; [cbn [plain packed]; split; [now apply C | reflexivity] | contradiction].
  - assert (C : forall f, In f (files d) -> f_idx f = i -> plain f = Some (j_data j) /\ packed f = Some (Some (j_data j))).
    { intros f Hf Ef. specialize (F f Hf). rewrite St in F. apply F. congruence. }
    assert (CT : forall f, In f (files d) -> contents (if f_idx f =? i then File i None (packed f) else f) = contents f).
    { intros f Hf. destruct (Nat.eqb_spec (f_idx f) i) as [Ef|]; [|reflexivity]. unfold contents. cbn [plain packed]. destruct (C f Hf Ef) as [-> ->]. reflexivity. }
    split; [|cbn [files base max_index compressor jobs]; unfold drop_plain; rewrite map_length; split; [now apply TX|]; repeat split; auto].
    eapply (good_change d i (fun f => if f_idx f =? i then File i None (packed f) else f) (drop_job i (jobs d))); [exact G | | | | | | exact ND | reflexivity].
    + intros f. destruct (Nat.eqb_spec (f_idx f) i); [cbn; congruence | reflexivity].
    + intros f Nf. destruct (Nat.eqb_spec (f_idx f) i); [contradiction | reflexivity].
    + intros f Hf Ef. rewrite CT by exact Hf. now apply (g_read _ G).
    + intros k Hk _. now apply in_drop in Hk as [Hk _].
    + intros k Hk Ek. apply in_drop in Hk as [_ Hk]. contradiction.
Qed.
Lemma finish_good : forall d, good d -> good (finish d) /\ map text (files (finish d)) = map text (files d) /\ base (finish d) = base d
  /\ max_index (finish d) = max_index d /\ length (files (finish d)) = length (files d).
Proof.
  intros d G. unfold finish. destruct (compressor d) as [i|]; [|auto].
  destruct (work_good i d G) as (G1 & T1 & B1 & M1 & _ & L1 & _). destruct (work_good i _ G1) as (G2 & T2 & B2 & M2 & _ & L2 & _).
  destruct (work_good i _ G2) as (G3 & T3 & B3 & M3 & _ & L3 & _). cbn [files base max_index]. split; [split; apply G3|]. repeat split; congruence.
Qed.

Section Handler.
Variables max_bytes backup_count : nat.
Variable compression : bool.
Hypothesis not_one : backup_count <> 1.

Lemma filter_skip : forall t fs a, map f_idx fs = seq (S a) (length fs) -> filter (fun f => t <? f_idx f) fs = skipn (t - a) fs.
Proof.
  intros t fs. induction fs as [|f fs IH]; intros a H; [now rewrite skipn_nil|]. cbn [map length seq] in H. injection H as E H. cbn [filter]. rewrite (IH (S a) H).
  destruct (Nat.ltb_spec t (f_idx f)).
  - replace (t - a) with 0 by lia. replace (t - S a) with 0 by lia. reflexivity.
  - replace (t - a) with (S (t - S a)) by lia. reflexivity.
Qed.
Lemma in_skip : forall {A} n (l : list A) x, In x (skipn n l) -> In x l.
Proof. intros A n. induction n as [|n IH]; intros [|a l] x H; try assumption. right. now apply IH. Qed.
Lemma seq_skip : forall n a b, skipn n (seq a b) = seq (a + n) (b - n).
Proof. intros n. induction n as [|n IH]; intros a [|b]; cbn [skipn seq Nat.sub]; try (rewrite ?Nat.add_0_r; reflexivity). rewrite IH. f_equal. lia. Qed.
Lemma prune_good : forall d, good d -> let d' := prune backup_count d in good d' /\ base d' = base d /\ max_index d' = max_index d /\
  (exists x, map text (files d) = x ++ map text (files d') /\ (x = [] \/ backup_count <> 0 /\ backup_count - 1 <= length (files d'))) /\
  (backup_count <> 0 -> length (files d') <= backup_count - 1).
Proof.
  intros d G. cbv zeta. unfold prune. destruct (Nat.eqb_spec backup_count 0) as [Z|Z].
  - split; [exact G|]. split; [reflexivity|]. split; [reflexivity|]. split; [exists []; auto | contradiction].
  - pose proof (g_seq _ G) as (a & A & B).
    assert (E : filter (fun f => S (max_index d) <? f_idx f + backup_count) (files d) = skipn (S (max_index d) - backup_count - a) (files d)).
    { rewrite <- filter_skip by exact A. apply filter_ext_in. intros f Hf. destruct (idx_le _ _ A f Hf) as [I1 I2].
      destruct (Nat.ltb_spec (S (max_index d)) (f_idx f + backup_count)), (Nat.ltb_spec (S (max_index d) - backup_count) (f_idx f)); try reflexivity; lia. }
    rewrite E. set (k := S (max_index d) - backup_count - a). cbn [files base max_index]. split; [|split; [reflexivity|split; [reflexivity|split]]].
    + split; cbn [files base max_index jobs].
      * exists (a + Nat.min k (length (files d))). rewrite <- skipn_map, A, seq_skip, skipn_length. split; [f_equal; lia | lia].
      * intros Q. apply (f_equal (@length _)) in Q. rewrite skipn_length in Q. cbn [length] in Q. destruct (Nat.eq_dec (length (files d)) 0) as [L0|L0]; [apply G; now apply length_zero_iff_nil|].
        exfalso. unfold k in Q. lia.
      * intros f Hf. apply in_skip in Hf. now apply (g_read _ G).
      * intros j Hj. destruct (g_jobs _ G j Hj) as [L F]. split; [exact L|]. intros f Hf. apply in_skip in Hf. exact (F f Hf).
      * apply G.
    + exists (firstn k (map text (files d))). rewrite <- skipn_map, firstn_skipn. split; [reflexivity|]. destruct (Nat.eq_dec k 0) as [->|K]; [now left|]. right. split; [exact Z|].
      rewrite skipn_length. unfold k in *. lia.
    + intros _. rewrite skipn_length. unfold k. lia.
Qed.
Lemma rename_files : forall d, good d -> files (rename d) = files d ++ [File (S (max_index d)) (Some (base d)) None].
Proof.
  intros d G. unfold rename. cbn [files]. destruct (existsb _ (files d)) eqn:E; [|reflexivity]. apply existsb_exists in E as (f & Hf & Ef). apply Nat.eqb_eq in Ef.
  destruct (g_seq _ G) as (a & A & B). destruct (idx_le _ _ A f Hf). lia.
Qed.
Lemma rename_good : forall d, good d -> good (rename d).
Proof.
  intros d G. pose proof (rename_files d G) as R. pose proof (g_seq _ G) as (a & A & B). split.
  - exists a. rewrite R. rewrite map_app, app_length, seq_app, A. cbn [length map f_idx rename max_index]. split; [f_equal; cbn; f_equal; lia | lia].
  - rewrite R. intros E. now destruct (files d).
  - rewrite R. intros f Hf. apply in_app_or in Hf as [Hf|[<-|[]]]; [now apply (g_read _ G) | discriminate].
  - cbn [rename jobs max_index]. intros j Hj. destruct (g_jobs _ G j Hj) as [L F]. split; [lia|]. fold (rename d). 
    change (fits_job (files (rename d)) j). rewrite R. intros f Hf Ef. apply in_app_or in Hf as [Hf|[<-|[]]]; [exact (F f Hf Ef)|]. cbn [f_idx] in Ef. lia.
  - cbn [rename jobs]. apply G.
Qed.
Lemma start_good : forall d, good d -> (forall j, In j (jobs d) -> j_idx j < max_index d) -> (forall f, In f (files d) -> f_idx f = max_index d -> plain f <> None) -> good (start compression d).
Proof.
  intros d G J P. unfold start. destruct compression; [|exact G]. split; cbn [files base jobs max_index]; try apply G.
  - intros j [<-|Hj]; [|now apply (g_jobs _ G)]. split; [reflexivity|]. intros f Hf Ef. cbn [j_stage j_idx] in *. now apply P.
  - cbn [map j_idx]. constructor; [|apply G]. intros X. apply in_map_iff in X as (j & E & Hj). specialize (J j Hj). lia.
Qed.
Lemma restart_good : forall kill d, good d -> good (restart kill d) /\ max_index (restart kill d) = max_index d.
Proof.
  intros kill d G. pose proof (g_seq _ G) as (a & A & B).
  assert (M : list_max (map f_idx (files d)) = max_index d).
  { destruct (files d) as [|f fs] eqn:Ef; [cbn; symmetry; now apply (g_zero _ G)|]. rewrite <- Ef in *. apply Nat.le_antisymm.
    - apply list_max_le. apply Forall_forall. intros x Hx. rewrite A in Hx. apply in_seq in Hx. lia.
    - assert (Q : Forall (fun k => k <= list_max (map f_idx (files d))) (map f_idx (files d))) by now apply list_max_le.
      rewrite Forall_forall in Q. apply Q. rewrite A. apply in_seq. rewrite Ef in *. cbn [length] in *. lia. }
  unfold restart. rewrite M. split; [|reflexivity]. split; cbn [files base jobs max_index]; try apply G.
  - destruct kill; [intros j [] | apply G].
  - destruct kill; [constructor | apply G].
Qed.
Lemma rotated : forall d, good d -> let d' := rename (finish (prune backup_count d)) in good d' /\ base d' = [] /\
  (exists x, map text (files d) ++ [base d] = x ++ map text (files d') /\ (x = [] \/ backup_count <> 0 /\ backup_count - 1 <= length (files d'))) /\
  (backup_count <> 0 -> length (files d') <= backup_count) /\
  (forall f, In f (files d') -> f_idx f = max_index d' -> plain f <> None) /\ (forall j, In j (jobs d') -> j_idx j < max_index d').
Proof.
  intros d G. cbv zeta. destruct (prune_good d G) as (G1 & B1 & M1 & (x & X1 & X2) & L1). destruct (finish_good _ G1) as (G2 & T2 & B2 & M2 & L2).
  set (d2 := finish (prune backup_count d)) in *. pose proof (rename_files d2 G2) as R. split; [now apply rename_good|]. split; [reflexivity|]. split; [|split; [|split]].
  - exists x. rewrite R, map_app, T2, app_assoc, <- X1. split; [cbn [map text contents plain]; congruence|]. destruct X2 as [->|[N X2]]; [now left|]. right.
    split; [exact N|]. rewrite app_length. lia.
  - intros N. rewrite R, app_length. cbn [length]. specialize (L1 N). lia.
  - rewrite R. intros f Hf Ef. apply in_app_or in Hf as [Hf|[<-|[]]]; [|discriminate]. destruct (g_seq _ G2) as (a & A & B). destruct (idx_le _ _ A f Hf).
    cbn [rename max_index] in Ef. lia.
  - cbn [rename jobs max_index]. intros j Hj. destruct (g_jobs _ G2 j Hj). lia.
Qed.
(** the main invariant, for the whole history *)
Definition kept (w : list line) (d : dir) : Prop := exists x, w = x ++ log d /\ (x = [] \/ backup_count <> 0 /\ backup_count - 1 <= length (files d)).
Lemma kept_change : forall w d d' y, kept w d -> map text (files d) ++ [base d] = y ++ map text (files d') ++ [base d'] ->
  (y = [] /\ (length (files d) <= length (files d')) \/ backup_count <> 0 /\ backup_count - 1 <= length (files d')) -> kept w d'.
Proof.
  intros w d d' y (x & X1 & X2) E L. exists (x ++ concat y). split.
  - rewrite X1, <- app_assoc. f_equal. unfold log. transitivity (concat (map text (files d) ++ [base d])); [rewrite concat_app; cbn; now rewrite app_nil_r|].
    rewrite E, !concat_app. cbn. now rewrite app_nil_r.
  - destruct L as [[-> L]|L]; [|now right]. cbn. rewrite app_nil_r. destruct X2 as [->|[N X2]]; [now left|]. right. split; [exact N | lia].
Qed.
Lemma kept_same : forall w d d', kept w d -> map text (files d') = map text (files d) -> base d' = base d -> kept w d'.
Proof.
  intros w d d' K T B. apply (kept_change w d d' [] K); [cbn; congruence|]. left. split; [reflexivity|]. rewrite <- (map_length text (files d)), <- T, map_length. reflexivity.
Qed.
Lemma kept_pruned : forall w d, good d -> kept w d -> kept w (prune backup_count d).
Proof.
  intros w d G K. destruct (prune_good d G) as (_ & B & _ & (x & X1 & X2) & _). apply (kept_change w d _ x K).
  - rewrite X1, B, <- app_assoc. reflexivity.
  - destruct X2 as [->|X2]; [|now right]. left. split; [reflexivity|]. apply (f_equal (@length _)) in X1. cbn [app] in X1. rewrite !map_length in X1. lia.
Qed.
Lemma log_rotated : forall d, good d -> exists x, log d = x ++ log (rename (finish (prune backup_count d))) /\
  (x = [] /\ length (files d) <= length (files (rename (finish (prune backup_count d)))) \/
   backup_count <> 0 /\ backup_count - 1 <= length (files (rename (finish (prune backup_count d))))).
Proof.
  intros d G. destruct (rotated d G) as (_ & B & (x & X1 & X2) & _). exists (concat x). split.
  - unfold log. rewrite B, app_nil_r, <- concat_app, <- X1, concat_app. cbn. now rewrite app_nil_r.
  - destruct X2 as [->|X2]; [|now right]. left. split; [reflexivity|]. apply (f_equal (@length _)) in X1. cbn [app] in X1. rewrite app_length, !map_length in X1. cbn [length] in X1. lia.
Qed.
Lemma kept_rotated : forall w d, good d -> kept w d -> kept w (rename (finish (prune backup_count d))).
Proof.
  intros w d G (x & X1 & X2). destruct (log_rotated d G) as (y & Y1 & Y2). exists (x ++ y). split; [now rewrite X1, Y1, app_assoc|].
  destruct Y2 as [[-> L]|Y2]; [|now right]. rewrite app_nil_r. destruct X2 as [->|[N X2]]; [now left|]. right. split; [exact N | lia].
Qed.
Lemma start_log : forall d, files (start compression d) = files d /\ base (start compression d) = base d /\ max_index (start compression d) = max_index d.
Proof. intros d. unfold start. now destruct compression. Qed.
Lemma kept_of : forall w d d', kept w d -> files d' = files d -> base d' = base d -> kept w d'.
Proof. intros w d d' K F B. apply (kept_same w d d' K); [now rewrite F | exact B]. Qed.
Lemma rollover_good : forall d, good d -> good (rollover backup_count compression d).
Proof. intros d G. destruct (rotated d G) as (G1 & _ & _ & _ & P & J). now apply start_good. Qed.
Lemma good_base : forall d b, good d -> good (Dir (files d) b (jobs d) (max_index d) (compressor d)).
Proof. intros d b G. split; apply G. Qed.
Definition few (d : dir) : Prop := backup_count <> 0 -> length (files d) <= backup_count.
Lemma step_good : forall w d o, good d -> kept w d -> few d ->
  let d' := step max_bytes backup_count compression d o in good d' /\ kept (w ++ written [o]) d' /\ few d'.
Proof.
  intros w d o G K L. cbv zeta. destruct o as [l|i|kill|kill|kill]; cbn [step written flat_map]; rewrite ?app_nil_r.
  - assert (Q : forall e, good e -> kept w e -> few e -> let e' := Dir (files e) (base e ++ [l]) (jobs e) (max_index e) (compressor e) in
      good e' /\ kept (w ++ [l]) e' /\ few e').
    { intros e Ge (x & X1 & X2) Le. cbv zeta. split; [now apply good_base|]. split; [|exact Le]. exists x. split; [|exact X2].
      rewrite X1. unfold log. cbn [files base]. now rewrite <- !app_assoc. }
    destruct (should max_bytes d l); [|now apply Q]. apply Q.
    + now apply rollover_good.
    + unfold rollover. destruct (start_log (rename (finish (prune backup_count d)))) as (F & B & _). exact (kept_of _ _ _ (kept_rotated w d G K) F B).
    + unfold rollover, few. destruct (start_log (rename (finish (prune backup_count d)))) as (-> & _ & _). now destruct (rotated d G) as (_ & _ & _ & X & _).
  - destruct (work_good i d G) as (G1 & T & B & _ & _ & LL & _). split; [exact G1|]. split; [now apply (kept_same w d)|]. unfold few. now rewrite LL.
  - destruct (restart_good kill d G) as [G1 _]. split; [exact G1|]. split; [now apply (kept_of w d) | exact L].
  - destruct (prune_good d G) as (G1 & _ & _ & _ & LL). destruct (restart_good kill _ G1) as [G2 _]. split; [exact G2|]. split; [apply (kept_of w (prune backup_count d)); [now apply kept_pruned | reflexivity | reflexivity]|].
    intros N. cbn [restart files]. specialize (LL N). lia.
  - destruct (rotated d G) as (G1 & _ & _ & LL & _). destruct (restart_good kill _ G1) as [G2 _]. split; [exact G2|].
    split; [apply (kept_of w (rename (finish (prune backup_count d)))); [now apply kept_rotated | reflexivity | reflexivity] | exact LL].
Qed.
Lemma run_good : forall h w d, good d -> kept w d -> few d ->
  let d' := run max_bytes backup_count compression d h in good d' /\ kept (w ++ written h) d' /\ few d'.
Proof.
  intros h. induction h as [|o h IH]; intros w d G K L; [cbn; rewrite app_nil_r; auto|].
  cbv zeta. cbn [run fold_left]. destruct (step_good w d o G K L) as (G1 & K1 & L1). specialize (IH _ _ G1 K1 L1). cbv zeta in IH. rewrite <- app_assoc in IH. 
  replace (written (o :: h)) with (written [o] ++ written h); [exact IH|]. unfold written. cbn [flat_map]. now rewrite app_nil_r.
Qed.
Lemma start_all : good init /\ kept [] init /\ few init.
Proof. split; [apply good_init|]. split; [exists []; auto|]. intros _. cbn. lia. Qed.

(** sizes *)
Definition small (c : list line) : Prop := size c < max_bytes \/ length c <= 1.
Definition all_small (d : dir) : Prop := Forall small (map text (files d)) /\ small (base d).
Hypothesis limited : 0 < max_bytes.
Lemma step_small : forall d o, good d -> all_small d -> all_small (step max_bytes backup_count compression d o).
Proof.
  intros d o G [A B].
  assert (P : Forall small (map text (files (prune backup_count d)))).
  { destruct (prune_good d G) as (_ & _ & _ & (x & X & _) & _). rewrite X in A. apply Forall_app in A. apply A. }
  assert (R : Forall small (map text (files (rename (finish (prune backup_count d)))))).
  { destruct (prune_good d G) as (G1 & B1 & _). destruct (finish_good _ G1) as (G2 & T & B2 & _). rewrite rename_files, map_app, T by exact G2. apply Forall_app.
    split; [exact P|]. constructor; [|constructor]. cbn [text contents plain]. now rewrite B2, B1. }
  destruct o as [l|i|kill|kill|kill]; cbn [step].
  - unfold should. replace (0 <? max_bytes) with true by (symmetry; now apply Nat.ltb_lt). cbn [andb]. destruct (Nat.leb_spec max_bytes (size (base d) + snd l)) as [Le|Lt].
    + unfold rollover. destruct (start_log (rename (finish (prune backup_count d)))) as (F & E & _). split; cbn [files base]; rewrite ?F, ?E; [exact R|]. cbn. right. cbn. lia.
    + split; cbn [files base]; [exact A|]. left. unfold size in *. rewrite map_app, list_sum_app. cbn. lia.
  - destruct (work_good i d G) as (_ & T & E & _). split; [now rewrite T | now rewrite E].
  - now split.
  - destruct (prune_good d G) as (_ & B1 & _). split; cbn [restart files base]; [exact P | now rewrite B1].
  - split; cbn [restart files base]; [exact R|]. right. cbn. lia.
Qed.
Lemma run_small : forall h w d, good d -> kept w d -> few d -> all_small d -> all_small (run max_bytes backup_count compression d h).
Proof.
  intros h. induction h as [|o h IH]; intros w d G K L A; [exact A|]. cbn. destruct (step_good w d o G K L) as (G1 & K1 & L1). apply (IH _ _ G1 K1 L1). now apply step_small.
Qed.
End Handler.
