From Coq Require Import List Arith NArith ZArith Lia Bool.
From Verif Require Import Bits_Model.
Import ListNotations.

Lemma pow2_pos n : 1 <= 2 ^ n.
Proof. assert (2 ^ n <> 0) by (apply Nat.pow_nonzero; lia). lia. Qed.

(** Every positive number is a power of two times an odd number. *)
Lemma two_adic n : 0 < n -> exists j m, n = 2 ^ j * (2 * m + 1).
Proof.
  induction n as [n IH] using lt_wf_ind. intros Hn.
  destruct (Nat.even n) eqn:E.
  - apply Nat.even_spec in E. destruct E as [k ->].
    destruct (IH k) as (j & m & E'); try lia.
    exists (S j), m. rewrite Nat.pow_succ_r'. lia.
  - assert (O : Nat.odd n = true) by (unfold Nat.odd; rewrite E; reflexivity).
    apply Nat.odd_spec in O. destruct O as [m ->].
    exists 0, m. simpl. lia.
Qed.

(** ** highest_bit_set *)
Lemma highest_bit_loop_spec f n : n <= f ->
  highest_bit_loop f n = if n =? 0 then 0 else S (Nat.log2 n).
Proof.
  revert n. induction f as [|f IH]; intros n Hn; simpl.
  - replace n with 0 by lia. reflexivity.
  - destruct (Nat.eqb_spec n 0) as [->|Hn0]; [reflexivity|].
    rewrite IH.
    + destruct (Nat.eqb_spec (Nat.div2 n) 0) as [E|E].
      * assert (n = 1). { destruct n as [|[|n]]; try lia. simpl in E. lia. }
        subst. reflexivity.
      * f_equal. assert (n <> 1) by (intros ->; simpl in E; lia).
        destruct (Nat.even n) eqn:Ev.
        -- apply Nat.even_spec in Ev. destruct Ev as [k ->].
           rewrite Nat.div2_double in *. rewrite Nat.log2_double by lia. reflexivity.
        -- assert (O : Nat.odd n = true) by (unfold Nat.odd; rewrite Ev; reflexivity).
           apply Nat.odd_spec in O. destruct O as [m ->].
           replace (2 * m + 1) with (S (2 * m)) in * by lia.
           rewrite Nat.div2_succ_double in *.
           replace (S (2 * m)) with (2 * m + 1) by lia.
           rewrite Nat.log2_succ_double by lia. reflexivity.
    + assert (Nat.div2 n < n) by (apply Nat.lt_div2; lia). lia.
Qed.

Lemma highest_bit_set_spec n :
  highest_bit_set n = if n =? 0 then 0 else S (Nat.log2 n).
Proof. apply highest_bit_loop_spec. lia. Qed.

Lemma highest_bit_set_pos n : 0 < n -> highest_bit_set n = S (Nat.log2 n).
Proof. intros. rewrite highest_bit_set_spec. destruct (Nat.eqb_spec n 0); lia. Qed.

Lemma highest_bit_set_pow2 j : highest_bit_set (2 ^ j) = S j.
Proof. rewrite highest_bit_set_pos by (pose proof (pow2_pos j); lia).
  rewrite Nat.log2_pow2; lia. Qed.

(** ** lowest_bit_set *)
Lemma Zland_double a b : Z.land (2 * a) (2 * b) = (2 * Z.land a b)%Z.
Proof.
  apply Z.bits_inj'. intros n Hn. rewrite Z.land_spec.
  destruct (Z.eq_dec n 0) as [->|Hn0].
  - rewrite !Z.testbit_even_0. reflexivity.
  - replace n with (Z.succ (n - 1)) by lia.
    rewrite !Z.testbit_even_succ by lia. rewrite Z.land_spec. reflexivity.
Qed.

Lemma Zland_odd_odd a b : Z.land (2 * a + 1) (2 * b + 1) = (2 * Z.land a b + 1)%Z.
Proof.
  apply Z.bits_inj'. intros n Hn. rewrite Z.land_spec.
  destruct (Z.eq_dec n 0) as [->|Hn0].
  - rewrite !Z.testbit_odd_0. reflexivity.
  - replace n with (Z.succ (n - 1)) by lia.
    rewrite !Z.testbit_odd_succ by lia. rewrite Z.land_spec. reflexivity.
Qed.

Lemma Zland_neg j m : Z.land (2 ^ Z.of_nat j * (2 * m + 1)) (- (2 ^ Z.of_nat j * (2 * m + 1)))
  = (2 ^ Z.of_nat j)%Z.
Proof.
  induction j as [|j IH].
  - simpl Z.of_nat. rewrite Z.pow_0_r, !Z.mul_1_l.
    replace (- (2 * m + 1))%Z with (2 * (- m - 1) + 1)%Z by lia.
    rewrite Zland_odd_odd. replace (- m - 1)%Z with (Z.lnot m) by (unfold Z.lnot; lia).
    rewrite Z.land_lnot_diag. reflexivity.
  - rewrite Nat2Z.inj_succ, Z.pow_succ_r by lia.
    replace (2 * 2 ^ Z.of_nat j * (2 * m + 1))%Z
      with (2 * (2 ^ Z.of_nat j * (2 * m + 1)))%Z by lia.
    replace (- (2 * (2 ^ Z.of_nat j * (2 * m + 1))))%Z
      with (2 * (- (2 ^ Z.of_nat j * (2 * m + 1))))%Z by lia.
    rewrite Zland_double, IH. reflexivity.
Qed.

Lemma lowest_bit_set_spec j m : lowest_bit_set (2 ^ j * (2 * m + 1)) = S j.
Proof.
  unfold lowest_bit_set.
  replace (Z.of_nat (2 ^ j * (2 * m + 1))) with (2 ^ Z.of_nat j * (2 * Z.of_nat m + 1))%Z.
  2:{ rewrite Nat2Z.inj_mul, Nat2Z.inj_pow, Nat2Z.inj_add, Nat2Z.inj_mul. reflexivity. }
  rewrite Zland_neg.
  replace (Z.to_nat (2 ^ Z.of_nat j)) with (2 ^ j).
  - apply highest_bit_set_pow2.
  - rewrite <- (Nat2Z.id (2 ^ j)). f_equal. rewrite Nat2Z.inj_pow. reflexivity.
Qed.

Lemma lowest_bit_set_0 : lowest_bit_set 0 = 0.
Proof. reflexivity. Qed.

Lemma lowest_bit_set_pow2 j : lowest_bit_set (2 ^ j) = S j.
Proof. replace (2 ^ j) with (2 ^ j * (2 * 0 + 1)) by lia. apply lowest_bit_set_spec. Qed.

(** ** count_bits_set *)
Lemma Nland_even_odd a b : Nat.land (2 * a) (2 * b + 1) = 2 * Nat.land a b.
Proof.
  apply Nat.bits_inj. intros [|n]; rewrite Nat.land_spec.
  - rewrite !Nat.testbit_even_0, Nat.testbit_odd_0. reflexivity.
  - rewrite !Nat.testbit_even_succ', Nat.testbit_odd_succ'. rewrite Nat.land_spec. reflexivity.
Qed.

Lemma land_pred j m :
  Nat.land (2 ^ j * (2 * m + 1)) (2 ^ j * (2 * m + 1) - 1) = 2 ^ j * (2 * m).
Proof.
  induction j as [|j IH].
  - simpl (2 ^ 0). rewrite !Nat.mul_1_l.
    replace (2 * m + 1 - 1) with (2 * m) by lia.
    rewrite Nat.land_comm, Nland_even_odd, Nat.land_diag. reflexivity.
  - rewrite Nat.pow_succ_r'. pose proof (pow2_pos j).
    replace (2 * 2 ^ j * (2 * m + 1)) with (2 * (2 ^ j * (2 * m + 1))) by lia.
    replace (2 * (2 ^ j * (2 * m + 1)) - 1) with (2 * (2 ^ j * (2 * m + 1) - 1) + 1) by nia.
    rewrite Nland_even_odd, IH. lia.
Qed.

Lemma count_bits_loop_fuel f i : i <= f -> count_bits_loop f i = count_bits_set i.
Proof.
  revert f. induction i as [i IH] using lt_wf_ind. intros f Hf.
  unfold count_bits_set. destruct (Nat.eq_dec i 0) as [->|Hi].
  - destruct f; reflexivity.
  - destruct f as [|f]; [lia|]. destruct i as [|i']; [lia|].
    set (i := S i') in *. change (count_bits_loop i i) with
      (if i =? 0 then 0 else S (count_bits_loop i' (Nat.land i (i - 1)))).
    change (count_bits_loop (S f) i) with
      (if i =? 0 then 0 else S (count_bits_loop f (Nat.land i (i - 1)))).
    destruct (Nat.eqb_spec i 0); [lia|].
    destruct (two_adic i ltac:(lia)) as (j & m & E).
    assert (L : Nat.land i (i - 1) < i).
    { rewrite E, land_pred. pose proof (pow2_pos j). nia. }
    f_equal. rewrite (IH _ L f) by lia. rewrite (IH _ L i') by lia. reflexivity.
Qed.

Lemma count_bits_step j m :
  count_bits_set (2 ^ j * (2 * m + 1)) = S (count_bits_set (2 ^ j * (2 * m))).
Proof.
  set (i := 2 ^ j * (2 * m + 1)).
  assert (Hi : 0 < i). { unfold i. pose proof (pow2_pos j). nia. }
  unfold count_bits_set at 1. destruct i as [|i'] eqn:E; [lia|].
  change (count_bits_loop (S i') (S i')) with
      (if S i' =? 0 then 0 else S (count_bits_loop i' (Nat.land (S i') (S i' - 1)))).
  simpl (S i' =? 0). cbv iota. f_equal.
  rewrite <- E. unfold i. rewrite land_pred. apply count_bits_loop_fuel.
  unfold i in E. pose proof (pow2_pos j). nia.
Qed.

Lemma count_bits_0 : count_bits_set 0 = 0.
Proof. reflexivity. Qed.

Lemma count_bits_pow2 j : count_bits_set (2 ^ j) = 1.
Proof.
  pose proof (count_bits_step j 0) as E.
  replace (2 ^ j * (2 * 0 + 1)) with (2 ^ j) in E by lia.
  replace (2 ^ j * (2 * 0)) with 0 in E by lia. exact E.
Qed.

(** Doubling keeps the number of ones; doubling plus one adds one. *)
Lemma count_bits_double n : count_bits_set (2 * n) = count_bits_set n.
Proof.
  induction n as [n IH] using lt_wf_ind.
  destruct (Nat.eq_dec n 0) as [->|Hn]; [reflexivity|].
  destruct (two_adic n ltac:(lia)) as (j & m & E). rewrite E.
  replace (2 * (2 ^ j * (2 * m + 1))) with (2 ^ (S j) * (2 * m + 1))
    by (rewrite Nat.pow_succ_r'; lia).
  rewrite !count_bits_step. f_equal.
  replace (2 ^ (S j) * (2 * m)) with (2 * (2 ^ j * (2 * m)))
    by (rewrite Nat.pow_succ_r'; lia).
  apply IH. rewrite E. pose proof (pow2_pos j). nia.
Qed.

Lemma count_bits_succ_double n : count_bits_set (2 * n + 1) = S (count_bits_set n).
Proof.
  replace (2 * n + 1) with (2 ^ 0 * (2 * n + 1)) by (simpl; lia).
  rewrite count_bits_step. f_equal. simpl (2 ^ 0).
  rewrite Nat.mul_1_l. apply count_bits_double.
Qed.

(** Binary induction. *)
Lemma binary_ind (P : nat -> Prop) :
  P 0 -> (forall n, 0 < n -> P n -> P (2 * n)) -> (forall n, P n -> P (2 * n + 1)) ->
  forall n, P n.
Proof.
  intros H0 He Ho n. induction n as [n IH] using lt_wf_ind.
  destruct (Nat.eq_dec n 0) as [->|Hn]; auto.
  destruct (Nat.even n) eqn:E.
  - apply Nat.even_spec in E. destruct E as [k ->]. apply He; [lia|]. apply IH; lia.
  - assert (O : Nat.odd n = true) by (unfold Nat.odd; rewrite E; reflexivity).
    apply Nat.odd_spec in O. destruct O as [m ->]. apply Ho. apply IH; lia.
Qed.

Lemma count_bits_le n : count_bits_set n <= n.
Proof.
  induction n as [|n Hn IH|n IH] using binary_ind.
  - reflexivity.
  - rewrite count_bits_double. lia.
  - rewrite count_bits_succ_double. lia.
Qed.

Lemma count_bits_add_pow2 p n : n < 2 ^ p ->
  count_bits_set (2 ^ p + n) = S (count_bits_set n).
Proof.
  revert n. induction p as [|p IH]; intros n Hn.
  - simpl in Hn. replace n with 0 by lia. reflexivity.
  - rewrite Nat.pow_succ_r' in Hn.
    destruct (Nat.even n) eqn:E.
    + apply Nat.even_spec in E. destruct E as [k ->].
      replace (2 ^ S p + 2 * k) with (2 * (2 ^ p + k)) by (rewrite Nat.pow_succ_r'; lia).
      rewrite !count_bits_double. apply IH. lia.
    + assert (O : Nat.odd n = true) by (unfold Nat.odd; rewrite E; reflexivity).
      apply Nat.odd_spec in O. destruct O as [m ->].
      replace (2 ^ S p + (2 * m + 1)) with (2 * (2 ^ p + m) + 1) by (rewrite Nat.pow_succ_r'; lia).
      rewrite !count_bits_succ_double. f_equal. apply IH. lia.
Qed.

(** [n - 1] has [j] more ones than [n] minus one, where [j] is the number of trailing zeros. *)
Lemma count_bits_pred j m :
  count_bits_set (2 ^ j * (2 * m + 1) - 1) + 1 = count_bits_set (2 ^ j * (2 * m + 1)) + j.
Proof.
  induction j as [|j IH].
  - simpl (2 ^ 0). rewrite Nat.mul_1_l. rewrite count_bits_succ_double.
    replace (2 * m + 1 - 1) with (2 * m) by lia. rewrite count_bits_double. lia.
  - set (i := 2 ^ j * (2 * m + 1)) in *.
    assert (Hi : 0 < i). { unfold i. pose proof (pow2_pos j). nia. }
    replace (2 ^ S j * (2 * m + 1)) with (2 * i) by (unfold i; rewrite Nat.pow_succ_r'; lia).
    rewrite count_bits_double.
    replace (2 * i - 1) with (2 * (i - 1) + 1) by lia.
    rewrite count_bits_succ_double. lia.
Qed.

Lemma count_bits_one_pow2 n : count_bits_set n = 1 -> exists p, n = 2 ^ p.
Proof.
  induction n as [|n Hn IH|n IH] using binary_ind; intros E.
  - discriminate.
  - rewrite count_bits_double in E. destruct (IH E) as [p ->]. exists (S p).
    rewrite Nat.pow_succ_r'. reflexivity.
  - rewrite count_bits_succ_double in E.
    exists 0. assert (count_bits_set n = 0) by lia.
    assert (n = 0). { destruct n as [|n]; auto. exfalso.
      destruct (two_adic (S n) ltac:(lia)) as (j & m & E').
      rewrite E', count_bits_step in H. discriminate. }
    subst. reflexivity.
Qed.

(** Largest power of two strictly below [n]. *)
Lemma split_bounds n : 2 <= n ->
  2 ^ Nat.log2 (n - 1) < n /\ n <= 2 * 2 ^ Nat.log2 (n - 1).
Proof.
  intros Hn. pose proof (Nat.log2_spec (n - 1) ltac:(lia)) as [A B].
  rewrite Nat.pow_succ_r' in B. lia.
Qed.

Lemma pow2_unique a b n : 2 ^ a < n -> n <= 2 * 2 ^ a -> 2 ^ b < n -> n <= 2 * 2 ^ b -> a = b.
Proof.
  intros A1 A2 B1 B2.
  destruct (lt_eq_lt_dec a b) as [[L|]|L]; auto; exfalso.
  - assert (2 ^ S a <= 2 ^ b) by (apply Nat.pow_le_mono_r; lia).
    rewrite Nat.pow_succ_r' in H. lia.
  - assert (2 ^ S b <= 2 ^ a) by (apply Nat.pow_le_mono_r; lia).
    rewrite Nat.pow_succ_r' in H. lia.
Qed.

Lemma split_log2 n j : 2 ^ j < n -> n <= 2 * 2 ^ j -> Nat.log2 (n - 1) = j.
Proof.
  intros A B. pose proof (pow2_pos j).
  apply Nat.log2_unique; [lia|]. rewrite Nat.pow_succ_r'. lia.
Qed.
