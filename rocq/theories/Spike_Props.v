(** C109: messages about suspicious spikes. *)
From Coq Require Import List Arith Bool QArith Lia Lqa.
From Verif Require Import Spike_Model.
Import ListNotations.
Open Scope Q_scope.

Lemma qle_true a b : Qle_bool a b = true <-> a <= b.
Proof. apply Qle_bool_iff. Qed.
Lemma qle_false a b : Qle_bool a b = false <-> b < a.
Proof.
  split.
  - intros H. apply Qnot_le_lt. intros L. apply qle_true in L. congruence.
  - intros H. destruct (Qle_bool a b) eqn:E; [|reflexivity]. apply qle_true in E. apply Qle_not_lt in E. contradiction.
Qed.
Section Spike.
Variable lg : nat -> Q.
Notation check := (check lg).
Notation checks := (checks lg).
Notation coeff := (coeff lg).

(** switched off, by the argument or the configuration: no message, and the measurements leave no trace *)
Theorem C109_off : forall c on h l, (on = false \/ enabled c = false) -> checks c on h l = (h, map (fun _ => false) l).
Proof.
  intros c on h l H. induction l as [|x l IH]; [reflexivity|]. cbn [Spike_Model.checks]. unfold Spike_Model.check.
  assert (E : on && enabled c = false) by (destruct H as [-> | ->]; [reflexivity|apply andb_false_r]). rewrite E. cbn [negb]. rewrite IH. reflexivity.
Qed.
Lemma check_fields c h x : enabled c = true -> fst (check c true h x) = update c h x.
Proof.
  intros E. unfold Spike_Model.check. rewrite E. cbn [andb negb]. destruct (cnt (update c h x) <=? min_cnt c)%nat; [reflexivity|].
  destruct (negb (Qle_bool (threshold c) (value h))); [reflexivity|].
  destruct (Qle_bool _ x && Qle_bool x _); reflexivity.
Qed.
(** every measurement is counted, and the first [min_cnt] ones send nothing *)
Theorem C109_warmup : forall c h l, enabled c = true -> cnt (fst (checks c true h l)) = (length l + cnt h)%nat /\
  ((length l + cnt h <= min_cnt c)%nat -> snd (checks c true h l) = map (fun _ => false) l).
Proof.
  intros c h l E. revert h. induction l as [|x l IH]; intros h; [auto|]. cbn [Spike_Model.checks].
  pose proof (check_fields c h x E) as F. destruct (check c true h x) as [h1 a] eqn:C. cbn [fst] in F. subst h1.
  destruct (IH (update c h x)) as [A B]. destruct (checks c true (update c h x) l) as [h2 r]. cbn [fst snd] in *. cbn [update cnt] in *. split; [cbn; lia|].
  cbn [length map]. intros L. rewrite B by lia. f_equal. unfold Spike_Model.check in C. rewrite E in C. cbn [andb negb update cnt] in C.
  assert (X : (S (cnt h) <=? min_cnt c)%nat = true) by (apply Nat.leb_le; lia). rewrite X in C. injection C as <-. reflexivity.
Qed.
Lemma alpha_range c : (1 <= min_cnt c)%nat -> 0 < alpha c /\ alpha c <= 1.
Proof.
  intros H. unfold alpha. split; [reflexivity|]. unfold Qle. cbn [Qnum Qden]. rewrite Zpos_P_of_succ_nat. lia.
Qed.
(** the expected value stays between the bounds of what was measured *)
Theorem C109_average : forall c h l lo hi, enabled c = true -> (1 <= min_cnt c)%nat -> lo <= value h <= hi -> (forall x, In x l -> lo <= x <= hi) ->
  lo <= value (fst (checks c true h l)) <= hi.
Proof.
  intros c h l lo hi E M. revert h. induction l as [|x l IH]; intros h H L; [exact H|]. cbn [Spike_Model.checks].
  pose proof (check_fields c h x E) as F. destruct (check c true h x) as [h1 a]. cbn [fst] in F. subst h1.
  assert (X : lo <= value (update c h x) <= hi).
  { cbn [update value]. destruct (alpha_range c M) as [A0 A1]. destruct (L x (or_introl eq_refl)) as [Lx Hx]. destruct H as [Lv Hv].
    assert (P1 : 0 <= (value h - lo) * (1 - alpha c)) by (apply Qmult_le_0_compat; lra).
    assert (P2 : 0 <= (x - lo) * alpha c) by (apply Qmult_le_0_compat; lra).
    assert (P3 : 0 <= (hi - value h) * (1 - alpha c)) by (apply Qmult_le_0_compat; lra).
    assert (P4 : 0 <= (hi - x) * alpha c) by (apply Qmult_le_0_compat; lra). split; lra. }
  specialize (IH _ X (fun y I => L y (or_intror I))). destruct (checks c true (update c h x) l) as [h2 r]. exact IH.
Qed.

(** the answer to a measurement, when enough were made and there is activity *)
Lemma check_ready c h x : enabled c = true -> (min_cnt c <= cnt h)%nat -> threshold c <= value h ->
  snd (check c true h x) = negb (Qle_bool (value h / coeff c (S (cnt h))) x && Qle_bool x (value h * coeff c (S (cnt h)))).
Proof.
  intros E M T. unfold Spike_Model.check. rewrite E. cbn [andb negb update cnt].
  assert (X : (S (cnt h) <=? min_cnt c)%nat = false) by (apply Nat.leb_gt; lia). rewrite X.
  apply qle_true in T. rewrite T. cbn [negb]. destruct (Qle_bool _ x && Qle_bool x _); reflexivity.
Qed.
(** below the activity threshold nothing is sent *)
Theorem C109_idle : forall c on h x, value h < threshold c -> snd (check c on h x) = false.
Proof.
  intros c on h x T. unfold Spike_Model.check. destruct (negb (on && enabled c)); [reflexivity|]. destruct (cnt (update c h x) <=? min_cnt c)%nat; [reflexivity|].
  apply qle_false in T. rewrite T. reflexivity.
Qed.
(** without weights: a message is sent for exactly those measurements that are off the expected value by more than the factor *)
Theorem C109_spike_partial : forall c h x, enabled c = true -> weighted c = false -> (min_cnt c <= cnt h)%nat -> threshold c <= value h -> 0 < bounds_coeff c ->
  (snd (check c true h x) = true <-> (x * bounds_coeff c < value h \/ value h * bounds_coeff c < x)).
Proof.
  intros c h x E W M T B. rewrite check_ready by assumption. unfold Spike_Model.coeff. rewrite W. cbn [andb].
  rewrite negb_true_iff, andb_false_iff, !qle_false. split; (intros [H|H]; [left|right; exact H]).
  - apply (Qmult_lt_r _ _ (bounds_coeff c) B) in H. assert (X : value h / bounds_coeff c * bounds_coeff c == value h) by (field; lra). lra.
  - apply Qlt_shift_div_l; assumption.
Qed.
(** with weights too, as long as the logarithm has not reached the factor, an unchanged level sends nothing *)
Theorem C109_steady_partial : forall c h, enabled c = true -> 0 <= value h -> 1 <= bounds_coeff c ->
  (weighted c = true -> (10 < S (cnt h))%nat -> 0 < lg (S (cnt h)) <= bounds_coeff c) -> snd (check c true h (value h)) = false.
Proof.
  intros c h E V B L. destruct (le_lt_dec (min_cnt c) (cnt h)) as [M|M].
  2:{ unfold Spike_Model.check. rewrite E. cbn [andb negb update cnt]. assert (X : (S (cnt h) <=? min_cnt c)%nat = true) by (apply Nat.leb_le; lia). rewrite X. reflexivity. }
  destruct (Qlt_le_dec (value h) (threshold c)) as [T|T]; [apply C109_idle; exact T|]. rewrite check_ready by assumption.
  assert (K : 1 <= coeff c (S (cnt h))).
  { unfold Spike_Model.coeff. destruct (weighted c) eqn:W; cbn [andb]; [|exact B]. destruct (10 <? S (cnt h))%nat eqn:N; [|exact B].
    apply Nat.ltb_lt in N. destruct (L eq_refl N) as [L0 L1]. apply Qle_shift_div_l; [exact L0|lra]. }
  set (k := coeff c (S (cnt h))) in *. apply negb_false_iff, andb_true_iff. rewrite !qle_true.
  assert (P : 0 <= value h * (k - 1)) by (apply Qmult_le_0_compat; lra). split; [|lra]. apply Qle_shift_div_r; lra.
Qed.
(** after that, every measurement sends a message, an unchanged level too *)
Theorem C109_weighted_refuted : forall c h x, enabled c = true -> weighted c = true -> (10 < S (cnt h))%nat -> (min_cnt c <= cnt h)%nat ->
  threshold c <= value h -> 0 < value h -> 0 < bounds_coeff c < lg (S (cnt h)) -> snd (check c true h x) = true.
Proof.
  intros c h x E W N M T V [B L]. rewrite check_ready by assumption. unfold Spike_Model.coeff. rewrite W. apply Nat.ltb_lt in N. rewrite N. cbn [andb].
  set (k := bounds_coeff c / lg (S (cnt h))).
  assert (K0 : 0 < k) by (apply Qlt_shift_div_l; lra). assert (K1 : k < 1) by (apply Qlt_shift_div_r; lra).
  rewrite negb_true_iff, andb_false_iff, !qle_false.
  destruct (Qlt_le_dec x (value h / k)) as [H|H]; [left; exact H|]. right.
  assert (P : value h < value h / k) by (apply Qlt_shift_div_l; [exact K0|]; assert (0 < value h * (1 - k)) by (apply Qmult_lt_0_compat; lra); lra).
  assert (R : 0 < value h * (1 - k)) by (apply Qmult_lt_0_compat; lra). lra.
Qed.
End Spike.
(** with [min_cnt] 0 the expected value leaves the range of what was measured *)
Theorem C109_average_refuted : forall lg c h x, enabled c = true -> min_cnt c = 0%nat -> value h < x -> x < value (fst (check lg c true h x)).
Proof.
  intros lg c h x E M H. rewrite check_fields by exact E. cbn [update value]. assert (A : alpha c == 2) by (unfold alpha; rewrite M; reflexivity). rewrite A. lra.
Qed.
(** every plugin is called once, in order, whichever fail; the pair returned is how many took the message and how many there are *)
Theorem C109_plugins : forall ps, send_message ps = (map fst ps, (length (filter snd ps), length ps)).
Proof.
  intros ps. unfold send_message.
  assert (G : forall ps called i, send ps called i = (called ++ map fst ps, (i + length (filter snd ps))%nat)).
  { clear. induction ps as [|[p ok] q IH]; intros called i; cbn; [rewrite app_nil_r, Nat.add_0_r; reflexivity|]. rewrite IH, <- app_assoc.
    destruct ok; cbn; f_equal; lia. }
  rewrite G. reflexivity.
Qed.

Definition ex_c : config := Config 3 3 1 false true.
Example C109_ex : snd (checks (fun _ => 1) ex_c true (History 0 0) [10; 10; 10; 10; 40; 25; 2]) = [false; false; false; false; true; false; true] /\
  snd (checks (fun _ => 1) ex_c false (History 0 0) [10; 10; 10; 10; 40; 25]) = [false; false; false; false; false; false].
Proof. split; reflexivity. Qed.
(** factor 3; the logarithm is given: above 3, as for 1001 measurements, and below *)
Example C109_weighted_ex : snd (check (fun _ => 30004 # 10000) (Config 3 3 1 true true) true (History 10 20) 10) = true /\
  snd (check (fun _ => 2) (Config 3 3 1 true true) true (History 10 20) 10) = false.
Proof. split; reflexivity. Qed.
Example C109_plugins_ex : send_message [(1%nat, true); (2%nat, false); (3%nat, true)] = ([1; 2; 3]%nat, (2, 3)%nat).
Proof. reflexivity. Qed.

Print Assumptions C109_average.
Print Assumptions C109_spike_partial.
Print Assumptions C109_steady_partial.
Print Assumptions C109_weighted_refuted.
Print Assumptions C109_plugins.
