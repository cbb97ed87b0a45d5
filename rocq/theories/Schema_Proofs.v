(** Proofs about the validation of messages. *)
From Coq Require Import Ascii String List Arith Bool ZArith Lia.
From Verif Require Import Schema_Model Schema_Spec.
Import ListNotations.
Local Open Scope Z_scope.

(** ** Strings, lookups *)
Lemma str_eqb_eq a : forall b, str_eqb a b = true <-> a = b.
Proof.
  induction a as [|x a IH]; intros [|y b]; cbn; try (split; congruence).
  rewrite andb_true_iff, Nat.eqb_eq, IH. split; [intros [-> ->]; reflexivity|intros E; injection E as -> ->; auto].
Qed.
Lemma str_eqb_refl a : str_eqb a a = true.
Proof. apply str_eqb_eq. reflexivity. Qed.
Lemma existsb_str x l : existsb (str_eqb x) l = true <-> In x l.
Proof. rewrite existsb_exists. split; [intros (y & I & E); apply str_eqb_eq in E; subst; exact I|intros I; exists x; rewrite str_eqb_refl; auto]. Qed.
Lemma existsb_z x l : existsb (Z.eqb x) l = true <-> In x l.
Proof. rewrite existsb_exists. split; [intros (y & I & E); apply Z.eqb_eq in E; subst; exact I|intros I; exists x; rewrite Z.eqb_refl; auto]. Qed.
Lemma find_in {A} k (v : A) d : find k d = Some v -> In (k, v) d.
Proof.
  induction d as [|[k' v'] d IH]; cbn; [discriminate|]. destruct (str_eqb k' k) eqn:E; [|auto].
  apply str_eqb_eq in E. intros F. injection F as ->. subst. left. reflexivity.
Qed.
Lemma in_find {A} k (v : A) d : In (k, v) d -> find k d <> None.
Proof.
  induction d as [|[k' v'] d IH]; cbn; [intros []|]. intros [E|I].
  - injection E as -> ->. rewrite str_eqb_refl. discriminate.
  - destruct (str_eqb k' k); [discriminate|exact (IH I)].
Qed.
Lemma nodupb_spec l : nodupb l = true <-> NoDup l.
Proof.
  induction l as [|x l IH]; cbn; [split; [constructor|reflexivity]|]. rewrite andb_true_iff, IH, negb_true_iff. split.
  - intros [N D]. constructor; [|exact D]. intros I. apply existsb_str in I. congruence.
  - intros D. inversion D; subst. split; [|assumption]. destruct (existsb (str_eqb x) l) eqn:E; [apply existsb_str in E; contradiction|reflexivity].
Qed.
Lemma find_nodup {A} k (v : A) d : NoDup (map fst d) -> In (k, v) d -> find k d = Some v.
Proof.
  induction d as [|[k' v'] d IH]; cbn; [intros _ []|]. intros N [E|I].
  - injection E as -> ->. rewrite str_eqb_refl. reflexivity.
  - inversion N; subst. destruct (str_eqb k' k) eqn:E; [|exact (IH H2 I)]. apply str_eqb_eq in E. subst. exfalso. apply H1. apply in_map_iff. exists (k, v). auto.
Qed.

Lemma check_good b : check b = Good <-> b = true.
Proof. destruct b; cbn; split; congruence. Qed.
Lemma andthen_good a b : andthen a b = Good <-> a = Good /\ b = Good.
Proof. destruct a; cbn; split; try tauto; try (intros [? ?]; discriminate); discriminate. Qed.
Lemma to_error_good a : to_error a = Good <-> a = Good.
Proof. destruct a; cbn; split; congruence. Qed.
Lemma each_good {A} (f : A -> res) l : each f l = Good <-> forall x, In x l -> f x = Good.
Proof.
  induction l as [|x l IH]; cbn; [split; [intros _ ? []|reflexivity]|]. rewrite andthen_good, IH. split.
  - intros [H G] y [<-|I]; auto.
  - intros H. split; [apply H; auto|intros y I; apply H; auto].
Qed.
Lemma as_int_spec v n : as_int v = Some n <-> is_int v n.
Proof.
  unfold is_int. destruct v as [|[]|z| | | |]; cbn; split; intros E; try discriminate E;
    try (destruct E as [E|[[E F]|[E F]]]; try discriminate E; congruence); injection E as <-; auto.
Qed.
Lemma len_zero {A} (l : list A) : negb (len l =? 0) = true <-> l <> [].
Proof. unfold len. destruct l; cbn; split; congruence. Qed.

(** ** Base 58 *)
Lemma digit_nth d c : nth_error alphabet d = Some c -> digit58 c = Z.of_nat d.
Proof.
  intros E. assert (d < 58)%nat as L. { change (d < length alphabet)%nat. apply nth_error_Some. congruence. }
  assert (forallb (fun d => match nth_error alphabet d with Some c => digit58 c =? Z.of_nat d | None => true end) (seq 0 58) = true) as F by (vm_compute; reflexivity).
  rewrite forallb_forall in F. specialize (F d). rewrite E in F. apply Z.eqb_eq. apply F. apply in_seq. lia.
Qed.
Lemma index_in c l : (match index c l with Some _ => true | None => false end) = true <-> In c l.
Proof.
  induction l as [|x l IH]; cbn [index In]; [split; [discriminate|intros []]|]. destruct (Nat.eqb_spec x c) as [E|E].
  - split; [intros _; left; exact E|reflexivity].
  - destruct (index c l); cbn [option_map]; split; intros H; try discriminate; auto; [right; apply IH; reflexivity|].
    destruct H as [H|H]; [contradiction|]. apply IH in H. discriminate.
Qed.
Definition val (x : str) : Z := fold_left (fun a c => a * 58 + digit58 c) x 0.
Lemma val_snoc x c : val (x ++ [c]) = val x * 58 + digit58 c.
Proof. unfold val. rewrite fold_left_app. reflexivity. Qed.
Lemma number_val x v : number x v -> v = val x.
Proof. induction 1 as [|x n c d N IH E]; [reflexivity|]. rewrite val_snoc, (digit_nth d c E), IH. reflexivity. Qed.
Lemma val_number x : (forall c, In c x -> In c alphabet) -> number x (val x).
Proof.
  induction x as [|c x IH] using rev_ind; intros A; [constructor|]. rewrite val_snoc.
  destruct (In_nth_error alphabet c (A c ltac:(apply in_or_app; right; left; reflexivity))) as [d E].
  rewrite (digit_nth d c E). constructor; [|exact E]. apply IH. intros y I. apply A. apply in_or_app. left. exact I.
Qed.
Lemma digit_nonneg c : 0 <= digit58 c.
Proof.
  unfold digit58. enough (forall l z, index c l = Some z -> 0 <= z) as K. { destruct (index c alphabet) eqn:E; [exact (K _ _ E)|lia]. }
  induction l as [|x l IH]; intros z E; cbn [index] in E; [discriminate|]. destruct (Nat.eqb x c); [injection E as <-; lia|].
  destruct (index c l); [|discriminate]. injection E as <-. specialize (IH z0 eq_refl). lia.
Qed.
Lemma val_nonneg x : 0 <= val x.
Proof. induction x as [|c x IH] using rev_ind; [apply Z.le_refl|]. rewrite val_snoc. pose proof (digit_nonneg c). lia. Qed.

Definition size (v : Z) : Z := if v =? 0 then 0 else Z.log2 v / 8 + 1.
Lemma pow256 m : 0 <= m -> 256 ^ m = 2 ^ (8 * m).
Proof. intros H. rewrite Z.pow_mul_r by lia. reflexivity. Qed.
Lemma size_spec v m : 0 <= v -> ((v = 0 /\ m = 0) \/ (0 < m /\ 256 ^ (m - 1) <= v < 256 ^ m)) <-> m = size v.
Proof.
  intros V. unfold size. destruct (Z.eqb_spec v 0) as [->|N].
  - split; [|intros ->; auto]. intros [[_ H]|[H L]]; [exact H|]. pose proof (Z.pow_pos_nonneg 256 (m - 1)). lia.
  - assert (0 < v) as P by lia. clear V. split.
    + intros [[H _]|[M L]]; [contradiction|]. rewrite !pow256 in L by lia.
      assert (8 * (m - 1) <= Z.log2 v). { apply Z.log2_le_pow2; lia. }
      assert (Z.log2 v < 8 * m). { apply Z.log2_lt_pow2; lia. }
      assert (Z.log2 v / 8 = m - 1); [|lia]. symmetry. apply (Z.div_unique (Z.log2 v) 8 (m - 1) (Z.log2 v - 8 * (m - 1))); lia.
    + intros ->. right. pose proof (Z.log2_nonneg v) as G. pose proof (Z.div_pos (Z.log2 v) 8 G ltac:(lia)) as D.
      pose proof (Z.div_mod (Z.log2 v) 8 ltac:(lia)) as Q. pose proof (Z.mod_pos_bound (Z.log2 v) 8 ltac:(lia)) as B.
      rewrite !pow256 by lia. split; [lia|]. split.
      * apply Z.log2_le_pow2; lia.
      * apply Z.log2_lt_pow2; lia.
Qed.
Lemma b58_other x : (forall r, x <> 49%nat :: r) -> b58_length x = size (val x).
Proof.
  intros N. destruct x as [|c x]; [reflexivity|].
  assert (c <> 49%nat) as H. { intros ->. exact (N x eq_refl). } clear N.
  do 50 (destruct c as [|c]; [try reflexivity; exfalso; apply H; reflexivity|]). reflexivity.
Qed.
Lemma b58_lead k rest : (forall r, rest <> 49%nat :: r) -> b58_length (repeat 49%nat k ++ rest) = Z.of_nat k + size (val rest).
Proof.
  intros N. induction k as [|k IH]; [cbn [repeat app]; rewrite (b58_other rest N); lia|].
  change (repeat 49%nat (S k) ++ rest) with (49%nat :: repeat 49%nat k ++ rest).
  change (b58_length (49%nat :: repeat 49%nat k ++ rest)) with (1 + b58_length (repeat 49%nat k ++ rest)). rewrite IH. lia.
Qed.
Lemma split_ones x : exists k rest, x = repeat 49%nat k ++ rest /\ forall r, rest <> 49%nat :: r.
Proof.
  induction x as [|c x IH]; [exists 0%nat, []; split; [reflexivity|discriminate]|].
  destruct (Nat.eq_dec c 49) as [->|N].
  - destruct IH as (k & rest & -> & R). exists (S k), rest. split; [reflexivity|exact R].
  - exists 0%nat, (c :: x). split; [reflexivity|]. intros r E. injection E as E _. contradiction.
Qed.
Lemma b58_spec x n : (forall c, In c x -> In c alphabet) -> b58_bytes x n <-> n = b58_length x.
Proof.
  intros A. split.
  - intros (k & rest & v & m & -> & R & N & M & ->). apply number_val in N. subst v.
    apply (size_spec _ m (val_nonneg rest)) in M. subst m. rewrite (b58_lead k rest R). reflexivity.
  - intros ->. destruct (split_ones x) as (k & rest & E & R). exists k, rest, (val rest), (size (val rest)).
    split; [exact E|]. split; [exact R|]. split; [apply val_number; intros c I; apply A; rewrite E; apply in_or_app; right; exact I|].
    split; [apply size_spec; [apply val_nonneg|reflexivity]|]. rewrite E. apply b58_lead. exact R.
Qed.
Lemma base58_good lens x : base58 lens x = Good <-> base58_of lens x.
Proof.
  unfold base58, base58_of. destruct (forallb _ x) eqn:F.
  - assert (forall c, In c x -> In c alphabet) as A. { intros c I. rewrite forallb_forall in F. apply index_in. exact (F c I). }
    destruct lens as [ls|].
    + rewrite check_good, existsb_z. split.
      * intros I. split; [exact A|]. intros l E. injection E as <-. exists (b58_length x). split; [exact I|]. apply b58_spec; auto.
      * intros [_ H]. destruct (H ls eq_refl) as (n & I & B). apply b58_spec in B; [|exact A]. subst n. exact I.
    + split; [intros _; split; [exact A|discriminate]|reflexivity].
  - split; [discriminate|]. intros [A _]. exfalso. enough (forallb (fun c => match index c alphabet with Some _ => true | None => false end) x = true) by congruence.
    apply forallb_forall. intros c I. apply index_in. exact (A c I).
Qed.

(** ** The validators *)
Lemma sha256_good x : sha256_hex x = true <-> exists h, (x = h \/ x = h ++ [10%nat]) /\ length h = 64%nat /\ forall c, In c h -> hex_char c.
Proof.
  assert (forall c, is_hex c = true <-> hex_char c) as X.
  { intros c. unfold is_hex, hex_char. rewrite !orb_true_iff, !andb_true_iff, !Nat.leb_le. tauto. }
  unfold sha256_hex. rewrite !andb_true_iff, orb_true_iff, !Nat.eqb_eq, str_eqb_eq, forallb_forall. split.
  - intros [[L F] O]. exists (firstn 64 x). split; [|split; [exact L|intros c I; apply X; exact (F c I)]]. destruct O as [O|O].
    + left. symmetry. apply firstn_all2. lia.
    + right. rewrite <- O. symmetry. apply firstn_skipn.
  - intros (h & [-> | ->] & L & F).
    + rewrite firstn_all2 by lia. repeat split; auto. intros c I. apply X. exact (F c I).
    + rewrite <- L, firstn_app, skipn_app, Nat.sub_diag, firstn_O, skipn_O, app_nil_r, firstn_all, skipn_all, app_nil_l.
      repeat split; auto. intros c I. apply X. exact (F c I).
Qed.
Lemma v_nonneg_good v : v_nonneg v = Good <-> nonneg v.
Proof.
  unfold v_nonneg, nonneg. destruct (as_int v) as [z|] eqn:E.
  - rewrite check_good, Z.leb_le. apply as_int_spec in E. split; [intros L; exists z; auto|].
    intros (n & I & L). apply as_int_spec in E, I. congruence.
  - split; [discriminate|]. intros (n & I & _). apply as_int_spec in I. congruence.
Qed.
Lemma v_time_good v : v_time v = Good <-> time v.
Proof.
  unfold v_time, time, oldest_time. destruct (as_int v) as [z|] eqn:E.
  - rewrite check_good, Z.leb_le. apply as_int_spec in E. split; [intros L; exists z; auto|].
    intros (n & I & L). apply as_int_spec in E, I. congruence.
  - split; [discriminate|]. intros (n & I & _). apply as_int_spec in I. congruence.
Qed.
Lemma v_nonempty_good v : v_nonempty v = Good <-> nonempty_str v.
Proof.
  unfold v_nonempty, nonempty_str. destruct v as [| | | |x| |]; try (split; [discriminate|intros (y & E & _); discriminate]).
  rewrite check_good, len_zero. split; [intros N; exists x; auto|intros (y & E & N); injection E as ->; exact N].
Qed.
Lemma v_str_good max e v : v_str max e v = Good <-> exists x, v = VStr x /\ (e = false -> x <> []) /\ Z.of_nat (length x) <= max.
Proof.
  unfold v_str. destruct v as [| | | |x| |]; try (split; [discriminate|intros (y & E & _); discriminate]).
  rewrite check_good, andb_true_iff, orb_true_iff, len_zero, Z.leb_le. unfold len. split.
  - intros [A B]. exists x. split; [reflexivity|]. split; [intros ->; destruct A; [discriminate|assumption]|exact B].
  - intros (y & E & A & B). injection E as <-. split; [destruct e; auto|exact B].
Qed.
Lemma v_str_good1 max v : v_str max false v = Good <-> string_upto max v.
Proof. rewrite v_str_good. unfold string_upto. split; intros (x & E & A & B); exists x; auto. Qed.
Lemma v_base58_good lens v : v_base58 lens v = Good <-> exists x, v = VStr x /\ base58_of lens x.
Proof.
  unfold v_base58. destruct v as [| | | |x| |]; try (split; [discriminate|intros (y & E & _); discriminate]).
  rewrite base58_good. split; [intros B; exists x; auto|intros (y & E & B); injection E as ->; exact B].
Qed.

Section P.
  Variable ip_ok : str -> bool.
  Variable to_int : str -> option Z.
  Variable ledger_ids : list Z.
  Notation validate := (validate ip_ok to_int ledger_ids).
  Notation v_kind := (v_kind ip_ok to_int ledger_ids).
  Notation wf := (wf ip_ok to_int ledger_ids).
  Notation wf_kind := (wf_kind ip_ok to_int ledger_ids).

  Lemma v_ledger_id_good v : v_ledger_id ledger_ids v = Good <-> ledger_id ledger_ids v.
  Proof.
    unfold v_ledger_id, ledger_id. destruct (as_int v) as [z|] eqn:E.
    - rewrite check_good, existsb_z. apply as_int_spec in E. split; [intros L; exists z; auto|].
      intros (n & I & L). apply as_int_spec in E, I. congruence.
    - split; [discriminate|]. intros (n & I & _). apply as_int_spec in I. congruence.
  Qed.
  Lemma v_verkey_good v : v_verkey v = Good <->
    exists x, v = VStr x /\ (base58_of (Some [32]) x \/ exists r, x = 126%nat :: r /\ base58_of (Some [16]) r).
  Proof.
    unfold v_verkey. destruct v as [| | | |x| |]; try (split; [discriminate|intros (y & E & _); discriminate]).
    assert (match x with 126%nat :: r => match base58 (Some [16]) r with Good => Good | _ => base58 (Some [32]) x end | _ => base58 (Some [32]) x end = Good
            <-> (base58 (Some [32]) x = Good \/ exists r, x = 126%nat :: r /\ base58 (Some [16]) r = Good)) as K.
    { destruct x as [|c x]; [split; [auto|intros [H|(r & E & _)]; [exact H|discriminate]]|].
      destruct (Nat.eq_dec c 126) as [->|N].
      - destruct (base58 (Some [16]) x) eqn:B; split; auto; try (intros H; right; exists x; auto); intros [H|(r & E & H)]; auto; injection E as <-; congruence.
      - assert (match (c :: x) with 126%nat :: r => match base58 (Some [16]) r with Good => Good | _ => base58 (Some [32]) (c :: x) end | _ => base58 (Some [32]) (c :: x) end = base58 (Some [32]) (c :: x)) as ->.
        { do 127 (destruct c as [|c]; [try reflexivity; exfalso; apply N; reflexivity|]). reflexivity. }
        split; [auto|]. intros [H|(r & E & _)]; [exact H|]. injection E as E _. contradiction. }
    rewrite K. split.
    - intros [H|(r & -> & H)]; [exists x; split; [reflexivity|left; apply base58_good; exact H]|].
      exists (126%nat :: r). split; [reflexivity|right]. exists r. split; [reflexivity|apply base58_good; exact H].
    - intros (y & E & [H|(r & F & H)]); injection E as <-; [left; apply base58_good; exact H|right; exists r; split; [exact F|apply base58_good; exact H]].
  Qed.
  Lemma v_ledger_info_good v : v_ledger_info ledger_ids v = Good <->
    exists a b c, v = VList [a; b; c] /\ ledger_id ledger_ids a /\ nonneg b /\ hash32 c.
  Proof.
    unfold v_ledger_info, hash32. split.
    - destruct v as [| | | | |l|]; try discriminate. destruct l as [|a [|b [|c [|? ?]]]]; try discriminate.
      rewrite !andthen_good, v_ledger_id_good, v_nonneg_good, v_base58_good. intros (A & B & C). exists a, b, c. auto.
    - intros (a & b & c & -> & A & B & C). rewrite !andthen_good, v_ledger_id_good, v_nonneg_good, v_base58_good. auto.
  Qed.
  Lemma v_multi_sig_good v : v_multi_sig ledger_ids v = Good <-> multi_sig ledger_ids v.
  Proof.
    unfold v_multi_sig, multi_sig. split.
    - destruct v as [| | | | |l|]; try discriminate. destruct l as [|sig [|parts [|val [|? ?]]]]; try discriminate.
      rewrite !andthen_good, v_str_good1. intros (V & (x & -> & X1 & X2) & L).
      destruct parts as [| | | | |l|]; try discriminate L. rewrite andthen_good, each_good, check_good, len_zero in L. destruct L as [L1 L2].
      unfold v_multi_sig_value in V. destruct val as [| | | | |l'|]; try discriminate V.
      destruct l' as [|a [|b [|c [|d [|e [|? ?]]]]]]; try discriminate V; try (destruct b; discriminate V); try (destruct b, c; discriminate V);
        try (destruct b, c, d; discriminate V).
      destruct b as [| | | |b| |]; try discriminate V. destruct c as [| | | |c| |]; try discriminate V. destruct d as [| | | |d| |]; try discriminate V.
      destruct (as_int a) as [za|]; [|discriminate V]. destruct (as_int e) as [ze|]; [|discriminate V].
      rewrite !andthen_good, !base58_good, v_time_good, v_ledger_id_good in V. destruct V as (A & B & C & D & E).
      exists x, l, a, (VStr b), (VStr c), (VStr d), e. unfold hash32. repeat split; eauto. intros y I. apply v_nonempty_good. exact (L1 y I).
    - intros (sig & l & a & b & c & d & e & -> & S1 & S2 & L1 & L2 & A & (b' & -> & B) & (c' & -> & C) & (d' & -> & D) & E).
      rewrite !andthen_good, each_good, check_good, len_zero, v_str_good1. split; [|split; [exists sig; auto|split; [intros y I; apply v_nonempty_good; auto|exact L1]]].
      unfold v_multi_sig_value. destruct A as (za & A & A2). destruct E as (ze & E & E2).
      pose proof A as A'. pose proof E as E'. apply as_int_spec in A', E'. rewrite A', E'.
      rewrite !andthen_good, !base58_good, v_time_good, v_ledger_id_good. repeat split; try apply B; try apply C; try apply D; [exists za; auto|exists ze; auto].
  Qed.
  Lemma v_batch4_good a b c d : v_batch4 a b c d = Good <-> nonneg a /\ nonneg b /\ nonneg c /\ nonempty_str d.
  Proof. unfold v_batch4. rewrite !andthen_good, !v_nonneg_good, v_nonempty_good. tauto. Qed.
  Lemma v_batch_id_good v : v_batch_id v = Good <-> batch_id v.
  Proof.
    unfold v_batch_id, batch_id. split.
    - destruct v as [| | | | |l|m]; try discriminate.
      + destruct l as [|a [|b [|c [|d [|? ?]]]]]; try discriminate. rewrite v_batch4_good. intros (A & B & C & D). exists a, b, c, d. repeat split; auto.
      + destruct (len m =? 4) eqn:L; cbn [negb]; [|discriminate]. destruct (forallb _ m) eqn:F; cbn [negb]; [|discriminate].
        cbn [map batch_id_fields]. change batch_id_fields with [s "view_no"; s "pp_view_no"; s "pp_seq_no"; s "pp_digest"]. cbn [map].
        destruct (find (s "view_no") m) as [a|] eqn:Ea; [|discriminate]. destruct (find (s "pp_view_no") m) as [b|] eqn:Eb; [|discriminate].
        destruct (find (s "pp_seq_no") m) as [c|] eqn:Ec; [|discriminate]. destruct (find (s "pp_digest") m) as [d|] eqn:Ed; [|discriminate].
        rewrite v_batch4_good. intros (A & B & C & D). exists a, b, c, d. split; [exact A|]. split; [exact B|]. split; [exact C|]. split; [exact D|].
        right. exists m. apply Z.eqb_eq in L. unfold len in L. rewrite forallb_forall in F. repeat split; try assumption; [lia|].
        intros k x I. apply existsb_str. exact (F (k, x) I).
    - intros (a & b & c & d & A & B & C & D & [-> | (m & -> & L & F & Ea & Eb & Ec & Ed)]); [apply v_batch4_good; auto|].
      unfold len. rewrite L. cbn [Z.of_nat Z.eqb Pos.of_succ_nat Pos.succ Pos.eqb negb].
      assert (forallb (fun '(k, _) => existsb (str_eqb k) batch_id_fields) m = true) as ->. { apply forallb_forall. intros [k x] I. apply existsb_str. exact (F k x I). }
      cbn [negb]. change batch_id_fields with [s "view_no"; s "pp_view_no"; s "pp_seq_no"; s "pp_digest"]. cbn [map]. rewrite Ea, Eb, Ec, Ed.
      apply v_batch4_good. auto.
  Qed.
  Lemma v_view_change_good v : v_view_change v = Good <-> exists a b, v = VList [a; b] /\ nonempty_str a /\ string_upto 512 b.
  Proof.
    unfold v_view_change. split.
    - destruct v as [| | | | |l|]; try discriminate. destruct l as [|a [|b [|? ?]]]; try discriminate.
      rewrite andthen_good, v_nonempty_good, v_str_good1. intros [A B]. exists a, b. auto.
    - intros (a & b & -> & A & B). rewrite andthen_good, v_nonempty_good, v_str_good1. auto.
  Qed.

  (** ** The checks of whole messages *)
  Lemma find_nn_some k d v : find_nn (s k) d = Some v <-> present k d v.
  Proof.
    unfold find_nn, present. destruct (find (s k) d) as [[]|]; split; intros H; try discriminate; try (injection H as <-; split; [reflexivity|discriminate]);
      try (destruct H as [H _]; exact H); destruct H as [H N]; congruence.
  Qed.
  Lemma truthy_some k d : truthy_o (find_nn (s k) d) = true <-> non_empty k d.
  Proof.
    unfold find_nn, non_empty, truthy_o. destruct (find (s k) d) as [v|]; [|split; [discriminate|intros (v & E & _); discriminate]].
    destruct v; (split; [intros T|intros (w & E & T); injection E as <-]); solve [exact T | discriminate T | (eexists; split; [reflexivity|exact T])].
  Qed.
  Lemma str_in_spec v xs : str_in v xs = true <-> exists x, v = VStr x /\ In x xs.
  Proof.
    unfold str_in. destruct v as [| | | |x| |]; try (split; [discriminate|intros (y & E & _); discriminate]).
    rewrite existsb_str. split; [intros I; exists x; auto|intros (y & E & I); injection E as ->; exact I].
  Qed.
  Lemma in_sigs_spec v d : in_sigs v (find_nn (s "signatures") d) = true <-> signed_by d v.
  Proof.
    unfold in_sigs, signed_by, find_nn. destruct (find (s "signatures") d) as [w|] eqn:E.
    - destruct w as [| | | | | |m]; try (split; [discriminate|intros (? & ? & ? & _ & F & _); discriminate]).
      cbv iota. rewrite str_in_spec. split.
      + intros (x & -> & I). apply in_map_iff in I. destruct I as ([x' y] & <- & I). exists x', m, y. auto.
      + intros (x & m' & y & -> & F & I). injection F as <-. exists x. split; [reflexivity|]. apply in_map_iff. exists (x, y). auto.
    - split; [discriminate|]. intros (x & m & y & _ & F & _). discriminate.
  Qed.
  Lemma signed_non_empty d v : signed_by d v -> non_empty "signatures" d.
  Proof. intros (x & m & y & _ & F & I). exists (VDict m). split; [exact F|]. destruct m; [destruct I|reflexivity]. Qed.
  Lemma iff_neg (b : bool) (P : Prop) : (b = true <-> P) -> (negb b = true <-> ~ P).
  Proof. intros H. destruct b; cbn; split; try congruence; [intros N; exfalso; apply N; apply H; reflexivity|intros _ K; apply H in K; discriminate]. Qed.
  Lemma v_extra_good e d : v_extra e d = true <-> wf_extra e d.
  Proof.
    destruct e; cbn [v_extra wf_extra].
    - split; auto.
    - rewrite orb_true_iff, !Z.eqb_eq. unfold len. set (p := fun k => match find k d with Some _ => true | None => false end).
      assert (forall k, p k = true <-> find k d <> None) as P. { intros k. unfold p. destruct (find k d); split; congruence. }
      assert (Z.of_nat (length (filter p ha_fields)) = 0 <-> forall k, In k ha_fields -> find k d = None) as K0.
      { split.
        - intros L k I. destruct (find k d) eqn:F; [|reflexivity]. exfalso.
          assert (In k (filter p ha_fields)) as J by (apply filter_In; split; [exact I|apply P; congruence]). destruct (filter p ha_fields); [destruct J|discriminate].
        - intros H. assert (filter p ha_fields = []) as ->; [|reflexivity]. destruct (filter p ha_fields) as [|k r] eqn:F; [reflexivity|].
          assert (In k (filter p ha_fields)) as J by (rewrite F; left; reflexivity). apply filter_In in J. destruct J as [J1 J2]. apply P in J2. rewrite (H k J1) in J2. congruence. }
      assert (Z.of_nat (length (filter p ha_fields)) = Z.of_nat (length ha_fields) <-> forall k, In k ha_fields -> find k d <> None) as K1.
      { generalize ha_fields. intros l. split.
        - intros L k I. apply P. apply Nat2Z.inj in L.
          assert (forall l, (length (filter p l) <= length l)%nat) as LE. { clear. induction l as [|x l IH]; cbn; [lia|]. destruct (p x); cbn; lia. }
          induction l as [|x l IH]; [destruct I|]. cbn [filter] in L. destruct (p x) eqn:Ex.
          + cbn [length] in L. destruct I as [<-|I]; [exact Ex|]. apply IH; [lia|exact I].
          + pose proof (LE l). cbn [length] in L. lia.
        - intros H. f_equal. induction l as [|x l IH]; [reflexivity|]. cbn [filter]. rewrite (proj2 (P x) (H x (or_introl eq_refl))). cbn [length]. f_equal. apply IH. intros k I. apply H. right. exact I. }
      rewrite K0, K1. tauto.
    - rewrite !andb_true_iff, orb_true_iff, !truthy_some.
      rewrite (iff_neg _ (non_empty "signatures" d /\ non_empty "signature" d)) by (rewrite andb_true_iff, !truthy_some; reflexivity).
      assert ((match find_nn (s "endorser") d with
         | None => true
         | Some en => truthy_o (find_nn (s "signatures") d) && in_sigs en (find_nn (s "signatures") d)
             && match find_nn (s "identifier") d with Some idr => in_sigs idr (find_nn (s "signatures") d) | None => false end
         end) = true <-> forall en, present "endorser" d en -> signed_by d en /\ exists idr, present "identifier" d idr /\ signed_by d idr) as ->.
      { destruct (find_nn (s "endorser") d) as [en|] eqn:En.
        - rewrite !andb_true_iff, in_sigs_spec, truthy_some. split.
          + intros [[_ S1] I] en' P. apply find_nn_some in P. rewrite En in P. injection P as <-. split; [exact S1|].
            destruct (find_nn (s "identifier") d) as [idr|] eqn:Ei; [|discriminate]. apply find_nn_some in Ei. exists idr. split; [exact Ei|]. apply in_sigs_spec. exact I.
          + intros H. apply find_nn_some in En. destruct (H en En) as [S1 (idr & P & S2)]. apply find_nn_some in P. rewrite P.
            split; [split; [exact (signed_non_empty d en S1)|exact S1]|apply in_sigs_spec; exact S2].
        - split; [|reflexivity]. intros _ en P. apply find_nn_some in P. congruence. }
      assert (match find_nn (s "identifier") d with
         | Some idr => negb (truthy idr && truthy_o (find_nn (s "signatures") d)) || in_sigs idr (find_nn (s "signatures") d)
         | None => true
         end = true <-> forall idr, present "identifier" d idr -> truthy idr = true -> non_empty "signatures" d -> signed_by d idr) as ->.
      { destruct (find_nn (s "identifier") d) as [idr|] eqn:Ei.
        - rewrite orb_true_iff, in_sigs_spec. split.
          + intros [N|S1] idr' P T U; apply find_nn_some in P; rewrite Ei in P; injection P as <-; [|exact S1].
            apply truthy_some in U. rewrite T, U in N. discriminate.
          + intros H. apply find_nn_some in Ei. destruct (truthy idr) eqn:T; [|left; reflexivity]. destruct (truthy_o _) eqn:U; [|left; reflexivity].
            right. apply H; auto. apply truthy_some. exact U.
        - split; [|reflexivity]. intros _ idr P. apply find_nn_some in P. congruence. }
      tauto.
  Qed.

  (** ** All fields *)
  Section Ind.
    Variable Pf : field -> Prop.
    Variable Pk : kind -> Prop.
    Hypothesis HF : forall o n k, Pk k -> Pf (mkField o n k).
    Hypothesis HI : forall f, Pf f -> Pk (KIter f).
    Hypothesis HM : forall f g, Pf f -> Pf g -> Pk (KMap f g).
    Hypothesis HG : forall sc e, Forall (fun p => Pf (snd p)) sc -> Pk (KMsg sc e).
    Hypothesis HO : forall sc, Forall (fun p => Pf (snd p)) sc -> Pk (KOperation sc).
    Definition leaf (k : kind) : bool := match k with KIter _ | KMap _ _ | KMsg _ _ | KOperation _ => false | _ => true end.
    Hypothesis HL : forall k, leaf k = true -> Pk k.
    Fixpoint field_ind2 (f : field) : Pf f := match f with mkField o n k => HF o n k (kind_ind2 k) end
    with kind_ind2 (k : kind) : Pk k :=
      match k as k0 return Pk k0 with
      | KIter f => HI f (field_ind2 f)
      | KMap f g => HM f g (field_ind2 f) (field_ind2 g)
      | KMsg sc e => HG sc e ((fix go (l : list (str * field)) : Forall (fun p => Pf (snd p)) l :=
                                 match l with [] => Forall_nil _ | p :: q => Forall_cons p (field_ind2 (snd p)) (go q) end) sc)
      | KOperation sc => HO sc ((fix go (l : list (str * field)) : Forall (fun p => Pf (snd p)) l :=
                                 match l with [] => Forall_nil _ | p :: q => Forall_cons p (field_ind2 (snd p)) (go q) end) sc)
      | k0 => HL k0 eq_refl
      end.
  End Ind.

  Lemma null_or (n : bool) v r : (if n && match v with VNull => true | _ => false end then Good else r) = Good <-> (n = true /\ v = VNull) \/ r = Good.
  Proof.
    destruct n, v; cbn [andb]; split; intros H; auto; try (right; exact H); try (left; split; reflexivity);
      destruct H as [[A B]|H]; try discriminate; auto.
  Qed.
  Lemma null_same n v (r : res) (P : Prop) : (r = Good <-> P) ->
    ((if n && match v with VNull => true | _ => false end then Good else r) = Good <-> (n = true /\ v = VNull) \/ P).
  Proof. intros H. rewrite null_or, H. reflexivity. Qed.
  Ltac onlystr v := destruct v as [| | | |?x| |]; try (split; [discriminate|intros (? & ? & _); discriminate]).

  Lemma leaf_ok k : leaf k = true -> forall n v, v_kind n k v = Good <-> wf_kind n k v.
  Proof.
    intros L n v. destruct k; try discriminate L; cbn [Schema_Model.v_kind Schema_Spec.wf_kind]; apply null_same.
    - split; auto.
    - destruct v; try (split; [discriminate|intros (? & ?); discriminate]). split; eauto.
    - destruct (as_int v) as [z|] eqn:E.
      + split; [intros _; exists z; apply as_int_spec; exact E|reflexivity].
      + split; [discriminate|]. intros (z & I). apply as_int_spec in I. congruence.
    - apply v_nonempty_good.
    - apply v_str_good.
    - assert (match v with VNull => Good | _ => v_str max false v end = Good <-> v = VNull \/ v_str max false v = Good) as ->.
      { destruct v; split; intros H; auto; destruct H as [H|H]; try discriminate H; exact H. }
      rewrite v_str_good1. reflexivity.
    - destruct v; split; intros H; auto; try discriminate; try (right; eexists; reflexivity); destruct H as [H|(x & H)]; discriminate H.
    - apply v_nonneg_good.
    - destruct v as [| | | |y| |]; try (split; discriminate). rewrite check_good, str_eqb_eq. split; congruence.
    - destruct v; try (split; [discriminate|intros (? & ?); discriminate]). split; eauto.
    - destruct (as_int v) as [z|] eqn:E.
      + rewrite check_good, andb_true_iff, Z.ltb_lt, Z.leb_le. split; [intros B; exists z; split; [apply as_int_spec; exact E|lia]|].
        intros (m & I & B). apply as_int_spec in I. rewrite E in I. injection I as <-. lia.
      + split; [discriminate|]. intros (z & I & _). apply as_int_spec in I. congruence.
    - onlystr v. rewrite check_good, andb_true_iff, (iff_neg _ _ (existsb_str x zero_addresses)). split; [intros [A B]; exists x; auto|].
      intros (y & E & A & B). injection E as <-. auto.
    - assert ((if is_set && negb (hashable v) then Raise TypeError else check (str_in v xs)) = Good <-> str_in v xs = true) as ->.
      { destruct is_set, v; cbn [hashable negb andb]; rewrite ?check_good; try reflexivity; cbn; split; discriminate. }
      rewrite str_in_spec. reflexivity.
    - apply v_ledger_id_good.
    - apply v_base58_good.
    - apply v_verkey_good.
    - apply v_time_good.
    - onlystr v. rewrite check_good, orb_true_iff, len_zero. split.
      + intros H. exists x. split; [reflexivity|]. intros ->. destruct H; [discriminate|assumption].
      + intros (y & E & H). injection E as <-. destruct n; auto.
    - destruct (as_int v) as [z|] eqn:E.
      + rewrite check_good, Z.leb_le. split; [intros B; exists z; split; [apply as_int_spec; exact E|exact B]|].
        intros (m & I & B). apply as_int_spec in I. congruence.
      + split; [discriminate|]. intros (z & I & _). apply as_int_spec in I. congruence.
    - destruct v as [| | | |x| |]; try (split; [discriminate|intros (? & [H|H] & _); discriminate]). rewrite check_good, sha256_good.
      split; intros (h & H & R); exists h; (split; [destruct H as [H|H]; [left|right]; congruence|exact R]).
    - destruct v as [| | | |x| |]; try (rewrite v_nonneg_good; split; [auto|intros [H|(x & m & H & _)]; [exact H|discriminate]]).
      split.
      + destruct (to_int x) as [z|] eqn:E; [|discriminate]. rewrite check_good, Z.leb_le. intros H. right. exists x, z. auto.
      + intros [(m & I & _)|(y & m & E & T & H)]; [apply as_int_spec in I; discriminate|]. injection E as <-. rewrite T, check_good, Z.leb_le. exact H.
    - apply v_ledger_info_good.
    - apply v_multi_sig_good.
    - unfold CURRENT_PROTOCOL_VERSION. rewrite <- as_int_spec. destruct (as_int v) as [z|]; [|split; discriminate].
      rewrite check_good, Z.eqb_eq. split; congruence.
    - apply v_batch_id_good.
    - apply v_view_change_good.
  Qed.

  Definition ok (f : field) : Prop := proper f = true -> forall v, validate f v = Good <-> wf f v.
  Lemma iter_go f : forall l, (fix go (l : list value) : res := match l with [] => Good | x :: r => andthen (validate f x) (go r) end) l = each (validate f) l.
  Proof. induction l as [|x l IH]; [reflexivity|]. cbn [each]. rewrite <- IH. reflexivity. Qed.
  Lemma proper_all (sc : list (str * field)) :
    (fix all (sc : list (str * field)) : bool := match sc with [] => true | (_, f) :: q => proper f && all q end) sc = true <->
    forall m f, In (m, f) sc -> proper f = true.
  Proof.
    induction sc as [|[m f] sc IH]; [split; [intros _ ? ? []|reflexivity]|]. rewrite andb_true_iff, IH. split.
    - intros [A B] m' f' [E|I]; [injection E as <- <-; exact A|exact (B m' f' I)].
    - intros H. split; [apply (H m f); left; reflexivity|intros m' f' I; apply (H m' f'); right; exact I].
  Qed.
  Definition look (sc : schema) (n : str) (x : value) : res := match find n sc with Some f => validate f x | None => Good end.
  Lemma look_go n x : forall sc, (fix look (sc : list (str * field)) : res :=
     match sc with [] => Good | (m, f) :: q => if str_eqb m n then validate f x else look q end) sc = look sc n x.
  Proof. unfold look. induction sc as [|[m f] sc IH]; [reflexivity|]. cbn [find]. destruct (str_eqb m n); [reflexivity|exact IH]. Qed.
  Lemma all_go d (sc : schema) :
    (fix all (sc : list (str * field)) : Prop :=
       match sc with [] => True | (m, f) :: q => (is_optional f = false -> find m d <> None) /\ (forall x, In (m, x) d -> wf f x) /\ all q end) sc <->
    forall m f, In (m, f) sc -> (is_optional f = false -> find m d <> None) /\ forall x, In (m, x) d -> wf f x.
  Proof.
    induction sc as [|[m f] sc IH]; [split; [intros _ ? ? []|auto]|]. rewrite IH. split.
    - intros (A & B & C) m' f' [E|I]; [injection E as <- <-; auto|exact (C m' f' I)].
    - intros H. destruct (H m f (or_introl eq_refl)) as [A B]. split; [exact A|]. split; [exact B|]. intros m' f' I. apply H. right. exact I.
  Qed.

  Theorem validate_ok f : ok f.
  Proof.
    apply (field_ind2 ok (fun k => proper_kind k = true -> forall n v, v_kind n k v = Good <-> wf_kind n k v)).
    - intros o n k H P v. exact (H P n v).
    - intros g H P n v. cbn [Schema_Model.v_kind Schema_Spec.wf_kind]. apply null_same.
      destruct v as [| | | | |l|]; try (split; [discriminate|intros (? & ? & _); discriminate]).
      rewrite iter_go, each_good. cbn [proper_kind] in P. split.
      + intros A. exists l. split; [reflexivity|]. intros x I. apply (H P). exact (A x I).
      + intros (l' & E & A) x I. injection E as <-. apply (H P). exact (A x I).
    - intros kf vf Hk Hv P n v. cbn [proper_kind] in P. apply andb_true_iff in P. destruct P as [Pk Pv].
      cbn [Schema_Model.v_kind Schema_Spec.wf_kind]. apply null_same.
      destruct v as [| | | | | |d]; try (split; [discriminate|intros (? & ? & _); discriminate]).
      assert ((fix go (d : dict) : res := match d with [] => Good | (x, y) :: r => andthen (validate kf (VStr x)) (andthen (validate vf y) (go r)) end) d = Good
              <-> forall x y, In (x, y) d -> wf kf (VStr x) /\ wf vf y) as ->.
      { induction d as [|[x y] d IH]; [split; [intros _ ? ? []|reflexivity]|]. rewrite !andthen_good, IH, (Hk Pk), (Hv Pv). split.
        - intros (A & B & C) x' y' [E|I]; [injection E as <- <-; auto|exact (C x' y' I)].
        - intros A. destruct (A x y (or_introl eq_refl)) as [B C]. split; [exact B|]. split; [exact C|]. intros x' y' I. apply A. right. exact I. }
      split; [intros A; exists d; auto|intros (d' & E & A); injection E as <-; exact A].
    - intros sc e H P n v. cbn [proper_kind] in P. apply andb_true_iff in P. destruct P as [N P]. apply nodupb_spec in N. rewrite proper_all in P.
      cbn [Schema_Model.v_kind Schema_Spec.wf_kind].
      destruct v as [| | | | | |d]; try (split; [discriminate|intros (d & E & _); discriminate]).
      assert ((fix go (d : dict) : res :=
                match d with
                | [] => Good
                | (n, x) :: r =>
                  andthen (to_error ((fix look (sc : list (str * field)) : res :=
                                        match sc with
                                        | [] => Good
                                        | (m, f) :: q => if str_eqb m n then validate f x else look q
                                        end) sc)) (go r)
                end) d = Good <-> forall n x, In (n, x) d -> look sc n x = Good) as G.
      { clear. induction d as [|[m x] d IH]; [split; [intros _ ? ? []|reflexivity]|]. rewrite andthen_good, to_error_good, look_go, IH. split.
        - intros [A B] m' x' [E|I]; [injection E as <- <-; exact A|exact (B m' x' I)].
        - intros A. split; [apply A; left; reflexivity|intros m' x' I; apply A; right; exact I]. }
      assert (forall m f, In (m, f) sc -> forall x, validate f x = Good <-> wf f x) as W.
      { intros m f' I x. rewrite Forall_forall in H. exact (H (m, f') I (P m f' I) x). }
      split.
      + destruct (forallb _ sc) eqn:F; [|discriminate]. rewrite andthen_good, G. intros [A B]. exists d. split; [reflexivity|].
        split; [|apply v_extra_good; destruct (v_extra e d); [reflexivity|discriminate]].
        apply all_go. intros m g I. split.
        * rewrite forallb_forall in F. specialize (F (m, g) I). cbn in F. intros O. rewrite O in F. destruct (find m d); [discriminate|discriminate].
        * intros x J. apply (W m g I). specialize (A m x J). unfold look in A. rewrite (find_nodup m g sc N I) in A. exact A.
      + intros (d' & E & A & B). injection E as <-. rewrite all_go in A.
        assert (forallb (fun '(n, f) => is_optional f || match find n d with Some _ => true | None => false end) sc = true) as ->.
        { apply forallb_forall. intros [m g] I. destruct (A m g I) as [R _]. destruct (is_optional g); [reflexivity|]. specialize (R eq_refl). destruct (find m d); [reflexivity|congruence]. }
        apply v_extra_good in B. rewrite B, andthen_good, G. split; [|reflexivity].
        intros m x J. unfold look. destruct (find m sc) as [g|] eqn:Fm; [|reflexivity]. apply find_in in Fm. apply (W m g Fm). apply (A m g Fm). exact J.
    - intros sc H P n v. cbn [proper_kind] in P. apply andb_true_iff in P. destruct P as [N P]. apply nodupb_spec in N. rewrite proper_all in P.
      cbn [Schema_Model.v_kind Schema_Spec.wf_kind].
      destruct v as [| | | | | |d]; try (split; [discriminate|intros (d & t & E & _); discriminate]).
      assert (forall m f, In (m, f) sc -> forall x, validate f x = Good <-> wf f x) as W.
      { intros m f' I x. rewrite Forall_forall in H. exact (H (m, f') I (P m f' I) x). }
      assert (forall t, (fix all (ops : list (str * field)) : Prop := match ops with [] => True | (n, f) :: q => (t = VStr n -> wf f (VDict d)) /\ all q end) sc
              <-> forall m f, In (m, f) sc -> t = VStr m -> wf f (VDict d)) as A.
      { intros t. clear. induction sc as [|[m g] sc IH]; [split; [intros _ ? ? []|auto]|]. rewrite IH. split.
        - intros [B C] m' g' [E|I]; [injection E as <- <-; exact B|exact (C m' g' I)].
        - intros B. split; [exact (B m g (or_introl eq_refl))|intros m' g' I; exact (B m' g' (or_intror I))]. }
      assert (forall t, (fix look (ops : list (str * field)) : res := match ops with [] => Good | (n, f) :: q => if str_in t [n] then validate f (VDict d) else look q end) sc = Good
              <-> forall m f, In (m, f) sc -> t = VStr m -> validate f (VDict d) = Good) as B.
      { intros t. clear -N. induction sc as [|[m g] sc IH]; [split; [intros _ ? ? []|reflexivity]|]. inversion N as [|? ? N1 N2]; subst.
        destruct (str_in t [m]) eqn:T.
        - apply str_in_spec in T. destruct T as (x & -> & [<-|[]]). split.
          + intros V m' g' [E|I] F; [injection E as <- <-; exact V|]. injection F as <-. exfalso. apply N1. apply in_map_iff. exists (m, g'). auto.
          + intros C. exact (C m g (or_introl eq_refl) eq_refl).
        - rewrite (IH N2). split.
          + intros C m' g' [E|I] F; [|exact (C m' g' I F)]. injection E as <- <-. subst t. cbn [str_in existsb] in T. rewrite str_eqb_refl in T. discriminate.
          + intros C m' g' I F. exact (C m' g' (or_intror I) F). }
      split.
      + destruct (find_nn (s "type") d) as [t|] eqn:T; [|discriminate]. destruct (hashable t) eqn:Ht; [|discriminate]. intros V. rewrite B in V.
        exists d, t. split; [reflexivity|]. split; [apply find_nn_some; exact T|]. split; [exact Ht|]. rewrite A. intros m g I E. apply (W m g I). exact (V m g I E).
      + intros (d' & t & E & T & Ht & V). injection E as <-. apply find_nn_some in T. rewrite T, Ht, B. rewrite A in V. intros m g I F. apply (W m g I). exact (V m g I F).
    - intros k L _ n v. exact (leaf_ok k L n v).
  Qed.

  (** ** Messages made of keyword arguments *)
  Lemma find_filter {A} k (d : list (str * A)) : k <> s "op" -> find k (filter (fun '(k, _) => negb (str_eqb k (s "op"))) d) = find k d.
  Proof.
    intros N. induction d as [|[k' x] d IH]; [reflexivity|]. cbn [filter find]. destruct (str_eqb k' (s "op")) eqn:E; cbn [negb].
    - rewrite IH. apply str_eqb_eq in E. subst k'. destruct (str_eqb (s "op") k) eqn:F; [|reflexivity]. apply str_eqb_eq in F. subst k. contradiction.
    - cbn [find]. destruct (str_eqb k' k); [reflexivity|exact IH].
  Qed.
  Definition no_op (sc : schema) : bool := forallb (fun '(m, _) => negb (str_eqb m (s "op"))) sc.
  Lemma make_fields_good sc d : proper (req (KMsg sc ENone)) = true -> no_op sc = true ->
    make_fields ip_ok to_int ledger_ids sc d = Good <-> well_made ip_ok to_int ledger_ids sc d.
  Proof.
    intros P N. unfold make_fields, well_made. destruct (find (s "self") d); [split; [discriminate|intros [X _]; discriminate X]|].
    transitivity (well_formed ip_ok to_int ledger_ids sc d); [|tauto]. rewrite (validate_ok (req (KMsg sc ENone)) P). unfold req. cbn [Schema_Spec.wf Schema_Spec.wf_kind wf_extra].
    unfold no_op in N. rewrite forallb_forall in N.
    assert (forall m f, In (m, f) sc -> m <> s "op") as M. { intros m f I ->. specialize (N _ I). cbv beta iota in N. rewrite str_eqb_refl in N. discriminate. }
    assert (forall m f, In (m, f) sc -> find m (without_op d) = find m d) as F. { intros m f I. apply find_filter. exact (M m f I). }
    assert (forall m f x, In (m, f) sc -> (In (m, x) (without_op d) <-> In (m, x) d)) as G.
    { intros m f x I. unfold without_op. rewrite filter_In. split; [tauto|]. intros J. split; [exact J|].
      destruct (str_eqb m (s "op")) eqn:E; [apply str_eqb_eq in E; exfalso; exact (M m f I E)|reflexivity]. }
    split.
    - intros (d' & E & A & _). injection E as <-. rewrite all_go in A. intros m f I. destruct (A m f I) as [A1 A2]. rewrite (F m f I) in A1.
      split; [exact A1|]. intros x J. apply A2. apply (G m f x I). exact J.
    - intros W. exists (without_op d). split; [reflexivity|]. split; [|exact Logic.I]. apply all_go. intros m f I. destruct (W m f I) as [A1 A2].
      rewrite (F m f I). split; [exact A1|]. intros x J. apply A2. apply (G m f x I). exact J.
  Qed.
  Definition proper_class (c : schema * post) : bool := proper (req (KMsg (fst c) ENone)) && no_op (fst c).
  Lemma classes_proper : forallb (fun '(_, c) => proper_class c) classes = true.
  Proof. vm_compute. reflexivity. Qed.
  Lemma checkpoint_proper : proper_class (checkpoint, PNone) = true.
  Proof. vm_compute. reflexivity. Qed.
  Lemma batch_committed_proper : proper_class (batch_committed, PNone) = true.
  Proof. vm_compute. reflexivity. Qed.
  Lemma request_proper : proper (req request) = true.
  Proof. vm_compute. reflexivity. Qed.

  Lemma checkpoint_good v : make_checkpoint ip_ok to_int ledger_ids v = Good <-> forall c, v = VDict c -> well_made ip_ok to_int ledger_ids checkpoint c.
  Proof.
    pose proof checkpoint_proper as K. unfold proper_class in K. cbn [fst] in K. apply andb_true_iff in K. destruct K as [K1 K2].
    unfold make_checkpoint. destruct v; try (split; [intros _ c E; discriminate E|reflexivity]).
    rewrite (make_fields_good checkpoint d K1 K2). split; [intros W c E; injection E as <-; exact W|intros W; exact (W d eq_refl)].
  Qed.
  Lemma make_post_good p d : make_post ip_ok to_int ledger_ids p d = Good <-> wf_post ip_ok to_int ledger_ids p d.
  Proof.
    destruct p; cbn [make_post wf_post].
    - split; auto.
    - destruct (existsb _ _) eqn:E.
      + split; [discriminate|]. intros H. exfalso. apply existsb_exists in E. destruct E as (v & I & N). destruct v; try discriminate N.
        destruct (find (s "blsMultiSigs") d) as [[| | | | |l|]|]; try destruct I. exact (H l eq_refl I).
      + split; [|reflexivity]. intros _ l F I. rewrite F in E. cbn [list_of] in E.
        enough (existsb (fun v => match v with VNull => true | _ => false end) l = true) by congruence. apply existsb_exists. exists VNull. auto.
    - rewrite each_good. split.
      + intros H l c F I. rewrite F in H. cbn [list_of] in H. exact (proj1 (checkpoint_good (VDict c)) (H _ I) c eq_refl).
      + intros H v I. apply checkpoint_good. intros c ->. destruct (find (s "checkpoints") d) as [[| | | | |l|]|]; try destruct I. exact (H l c eq_refl I).
    - destruct (find (s "checkpoint") d) as [v|].
      + rewrite checkpoint_good. split; intros H c E; apply H; congruence.
      + split; [intros _ c E; discriminate E|reflexivity].
    - pose proof batch_committed_proper as K. unfold proper_class in K. cbn [fst] in K. apply andb_true_iff in K. destruct K as [K1 K2].
      destruct (find (s "msg") d) as [[| | | | | |m]|]; try (split; [discriminate|intros (m & E & _); discriminate E]).
      rewrite (make_fields_good batch_committed m K1 K2). split; [intros W; exists m; auto|intros (m' & E & W); injection E as <-; exact W].
  Qed.
  Theorem make_good n c d : In (n, c) classes ->
    make ip_ok to_int ledger_ids c d = Good <-> well_made ip_ok to_int ledger_ids (fst c) d /\ wf_post ip_ok to_int ledger_ids (snd c) d.
  Proof.
    intros I. pose proof classes_proper as K. rewrite forallb_forall in K. specialize (K (n, c) I). cbv beta iota in K. unfold proper_class in K.
    apply andb_true_iff in K. destruct K as [K1 K2]. unfold make. rewrite andthen_good, (make_fields_good (fst c) d K1 K2), make_post_good. reflexivity.
  Qed.
  Lemma msg_good sc e v : proper (req (KMsg sc e)) = true -> validate (req (KMsg sc e)) v = Good <->
    exists d, v = VDict d /\ well_formed ip_ok to_int ledger_ids sc d /\ wf_extra e d.
  Proof.
    intros P. rewrite (validate_ok (req (KMsg sc e)) P). unfold req. cbn [Schema_Spec.wf Schema_Spec.wf_kind]. unfold well_formed.
    split; intros (d & E & A & B); exists d; (split; [exact E|]; split; [|exact B]); apply (all_go d); exact A.
  Qed.
  Theorem request_good v : validate (req request) v = Good <->
    exists d, v = VDict d /\ well_formed ip_ok to_int ledger_ids request_fields d /\ wf_extra ERequest d.
  Proof. exact (msg_good request_fields ERequest v request_proper). Qed.
  Theorem make_request_good d : make_request ip_ok to_int ledger_ids d = Good <->
    well_made ip_ok to_int ledger_ids request_fields d /\ wf_extra ERequest d.
  Proof.
    unfold make_request, well_made. destruct (find (s "self") d); [split; [discriminate|intros [[X _] _]; discriminate X]|].
    rewrite request_good. split; [intros (d' & E & A & B); injection E as <-; auto|intros [[_ A] B]; exists d; auto].
  Qed.
End P.
