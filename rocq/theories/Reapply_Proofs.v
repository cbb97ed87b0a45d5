(** Invariants and inductions for C94. *)
From Coq Require Import List Arith Bool Lia.
From Verif Require Import Reapply_Model Reapply_Spec.
Import ListNotations.

Lemma key_eqb_eq a b : key_eqb a b = true <-> a = b.
Proof.
  destruct a as [[a1 a2] a3], b as [[b1 b2] b3]. unfold key_eqb. cbn [fst snd].
  rewrite !andb_true_iff, !Nat.eqb_eq. split; [intros [[-> ->] ->]; reflexivity | intros H; inversion H; auto].
Qed.
Lemma bid_eqb_eq a b : bid_eqb a b = true <-> a = b.
Proof.
  destruct a as [a1 a2 a3 a4], b as [b1 b2 b3 b4]. unfold bid_eqb. cbn [b_view b_pview b_seq b_digest]. rewrite !andb_true_iff, !Nat.eqb_eq.
  split; [intros [[[-> ->] ->] ->]; reflexivity | intros H; inversion H; auto].
Qed.
Lemma get_in k l p : get k l = Some p -> In (k, p) l.
Proof.
  induction l as [|[k' q] r IH]; cbn [get]; [discriminate|]. destruct (key_eqb k k') eqn:E.
  - apply key_eqb_eq in E. subst. intros H. injection H as ->. now left.
  - intros H. right. now apply IH.
Qed.
Lemma get_none k l : get k l = None <-> ~ exists p, In (k, p) l.
Proof.
  induction l as [|[k' q] r IH]; cbn [get].
  - split; [intros _ [p []] | reflexivity].
  - destruct (key_eqb k k') eqn:E.
    + apply key_eqb_eq in E. subst. split; [discriminate|]. intros H. exfalso. apply H. exists q. now left.
    + rewrite IH. split; intros H [p Hp]; apply H.
      * destruct Hp as [Hp|Hp]; [|now exists p]. inversion Hp; subst.
        assert (key_eqb k k = true) by now apply key_eqb_eq. congruence.
      * exists p. now right.
Qed.
Lemma in_put k p l k' p' : In (k', p') (put k p l) -> (k' = k /\ p' = p) \/ In (k', p') l.
Proof.
  induction l as [|[j q] r IH]; cbn [put].
  - intros [H|[]]. inversion H. now left.
  - destruct (k <? j) eqn:E1; [|destruct (k =? j) eqn:E2].
    + intros [H|H]; [inversion H; now left | now right].
    + intros [H|H]; [inversion H; now left | right; now right].
    + intros [H|H]; [right; now left|]. apply IH in H as [H|H]; [now left | right; now right].
Qed.
Lemma put_in k p l : In (k, p) (put k p l).
Proof.
  induction l as [|[j q] r IH]; cbn [put]; [now left|].
  destruct (k <? j); [now left|]. destruct (k =? j); [now left|]. now right.
Qed.
Lemma put_other k p l k' p' : k' <> k -> In (k', p') l -> In (k', p') (put k p l).
Proof.
  intros N. induction l as [|[j q] r IH]; cbn [put]; [intros []|].
  destruct (k <? j) eqn:E1; [now right|]. destruct (k =? j) eqn:E2.
  - apply Nat.eqb_eq in E2. subst. intros [H|H]; [inversion H; congruence | now right].
  - intros [H|H]; [now left | right; auto].
Qed.
Lemma max_put o k p l : fold_right Nat.max o (map fst (put k p l)) = Nat.max k (fold_right Nat.max o (map fst l)).
Proof.
  induction l as [|[j q] r IH]; cbn [put]; [reflexivity|].
  destruct (k <? j) eqn:E1; [reflexivity|]. destruct (k =? j) eqn:E2; cbn [map fst fold_right].
  - apply Nat.eqb_eq in E2. subst. lia.
  - rewrite IH. lia.
Qed.
Lemma max_ge o (l : list (nat * pp)) : o <= fold_right Nat.max o (map fst l).
Proof. induction l as [|[j q] r IH]; cbn [map fst fold_right]; lia. Qed.
Lemma max_step o (l : list (nat * pp)) : o < fold_right Nat.max o (map fst l) ->
  fold_right Nat.max (S o) (map fst l) = fold_right Nat.max o (map fst l).
Proof. induction l as [|[j q] r IH]; cbn [map fst fold_right]; [lia|]. intros H. destruct (Nat.le_gt_cases (S o) j).
  - pose proof (max_ge o r). destruct (Nat.eq_dec o (fold_right Nat.max o (map fst r))) as [E|E].
    + assert (fold_right Nat.max (S o) (map fst r) <= Nat.max (S o) (fold_right Nat.max o (map fst r))).
      { clear. induction r as [|[a b] r IH]; cbn [map fst fold_right]; lia. }
      pose proof (max_ge (S o) r). lia.
    + rewrite IH by lia. reflexivity.
  - rewrite IH by lia. reflexivity.
Qed.
Lemma has_in k l : has k l = true <-> exists p : pp, In (k, p) l.
Proof.
  unfold has. rewrite existsb_exists. split.
  - intros [[j p] [H E]]. cbn [fst] in E. apply Nat.eqb_eq in E. subst. now exists p.
  - intros [p H]. exists (k, p). split; [exact H|]. apply Nat.eqb_refl.
Qed.

Lemma last_cons (x d : nat) l : last (x :: l) d = last l x.
Proof.
  revert x d. induction l as [|a l IH]; intros x d; [reflexivity|]. change (last (x :: a :: l) d) with (last (a :: l) d).
  now rewrite (IH a d), (IH a x).
Qed.
Section Env.
Variable digest_of : nat -> nat -> nat -> nat.
Variable valid : list pp -> pp -> bool.
Variable dev : nat.
Notation process := (process digest_of valid dev).
Notation process_old := (process_old digest_of valid dev).
Notation try_name := (try_name digest_of valid dev).
Notation take := (take digest_of valid dev).
Notation start := (start digest_of valid dev).
Notation reply := (reply digest_of valid dev).
Notation run := (run digest_of valid dev).
Notation step := (step digest_of valid dev).
Notation dequeue := (dequeue digest_of valid dev).

Definition okp (s : rep) (k : nat) (p : pp) : Prop :=
  k = p_seq p /\ p_view p = view s /\ exists b, In b (names s) /\ named b p.
Definition right_digest (p : pp) : Prop := digest_of (p_orig p) (p_time p) (p_reqs p) = p_digest p.
Record inv (s0 s : rep) : Prop := Inv {
  i_view : view s = view s0; i_names : names s = names s0; i_old : old s = old s0;
  i_pps : forall k p, In (k, p) (pps s) -> okp s0 k p;
  i_prev : forall k p, In (k, p) (prev s) -> okp s0 k p;
  i_app : forall p, In p (applied s) -> okp s0 (p_seq p) p /\ right_digest p;
  i_last : last_pp s = ordered s0 + length (applied s);
  i_seq : map p_seq (applied s) = seq (S (ordered s0)) (length (applied s)) }.

Lemma inv_process s0 s now p : inv s0 s -> okp s0 (p_seq p) p -> inv s0 (process s now p).
Proof.
  intros I O. pose proof I as [V N OL P Q A L Q2]. unfold Reapply_Model.process. cbv zeta.
  set (s1 := Rep (view s) _ _ _ _ _ _ _ _ _ _ _ _ _ _ _).
  assert (I1 : inv s0 s1) by (constructor; assumption).
  destruct (p_seq p =? 0); [exact I1|].
  destruct (_ && _); [exact I1|]. destruct (_ && _); [exact I1|].
  destruct (p_seq p <=? ordered s1) eqn:EO.
  { constructor; try assumption.
    - intros k q H. apply in_put in H as [[-> ->]|H]; [exact O | now apply P].
    - unfold last_pp, add. cbn [pps ordered applied]. rewrite max_put.
      apply Nat.leb_le in EO. change (ordered s1) with (ordered s) in *.
      change (fold_right Nat.max (ordered s) (map fst (pps s1))) with (last_pp s).
      change (applied s1) with (applied s). pose proof (max_ge (ordered s) (pps s)). unfold last_pp in L |- *. lia. }
  destruct (negb (_ =? p_digest p)) eqn:ED; [constructor; assumption|].
  destruct (has _ _) eqn:EH; [exact I1|].
  destruct (negb (time_ok dev s1 p)); [constructor; assumption|].
  destruct (p_seq p <? last_pp s1) eqn:EL; [exact I1|].
  destruct (negb (is_next s1 (p_seq p))) eqn:EN.
  { constructor; try assumption. intros k q H. apply in_put in H as [[-> ->]|H]; [exact O | now apply Q]. }
  destruct (valid (applied s1) p); [|constructor; assumption].
  assert (E : p_seq p = S (last_pp s1)).
  { apply negb_false_iff in EN. unfold is_next in EN. apply Nat.ltb_ge in EL. apply Nat.leb_gt in EO.
    destruct (p_seq p =? 1) eqn:E1; [|now apply Nat.eqb_eq].
    apply Nat.eqb_eq in E1. destruct (last_pp s1) as [|[|n]] eqn:E2; [congruence | | lia].
    exfalso. assert (exists q, In (1, q) (pps s1)).
    { assert (G : forall l : list (nat * pp), fold_right Nat.max (ordered s1) (map fst l) = 1 -> ordered s1 = 0 -> exists q, In (1, q) l).
      { clear. intros l. induction l as [|[j q] r IH]; cbn [map fst fold_right]; [lia|]. intros H H0.
        destruct (Nat.eq_dec j 1) as [->|NE]; [exists q; now left|].
        destruct IH as [q' H']; [lia | lia |]. exists q'. now right. }
      apply G; [exact E2 | lia]. }
    apply has_in in H. rewrite E1 in EH. congruence. }
  apply negb_false_iff, Nat.eqb_eq in ED.
  change (last_pp s1) with (last_pp s) in E.
  constructor; try assumption.
  - intros k q H. apply in_put in H as [[-> ->]|H]; [exact O | now apply P].
  - intros q H. unfold add in H. cbn [applied] in H. apply in_app_iff in H as [H|[<-|[]]]; [now apply A | now split].
  - unfold last_pp, add. cbn [pps ordered applied]. rewrite max_put, app_length. cbn [length].
    change (applied s1) with (applied s). change (fold_right _ _ _) with (last_pp s). lia.
  - unfold add. cbn [applied]. change (applied s1) with (applied s). rewrite map_app, app_length, seq_app, Q2. cbn [map length seq].
    do 2 f_equal. lia.
Qed.
Lemma okp_to_view s0 s p b : inv s0 s -> In b (names s0) -> named b p -> okp s0 (p_seq (to_view (view s) p)) (to_view (view s) p).
Proof. intros I H N. split; [reflexivity|]. split; [cbn; apply (i_view _ _ I)|]. exists b. split; [exact H | exact N]. Qed.
Lemma inv_reapplied s0 s : inv s0 s -> inv s0 (reapplied s).
Proof. intros [V N OL P Q A L Q2]. constructor; assumption. Qed.
Definition keyed (s : rep) : Prop := forall k p, In (k, p) (old s) -> k = (p_orig p, p_seq p, p_digest p).
Lemma held_named s b p : keyed s -> held s b = Some p -> named b p.
Proof. intros K H. apply get_in, K in H. inversion H. repeat split; congruence. Qed.
Lemma inv_tries s0 now l : forall s, keyed s0 -> (forall b, In b l -> In b (names s0)) -> inv s0 s -> inv s0 (fold_left (try_name now) l s).
Proof.
  induction l as [|b l IH]; intros s K H I; [exact I|]. cbn [fold_left]. apply IH; [exact K | intros c Hc; apply H; now right |].
  unfold Reapply_Model.try_name. destruct (held s b) as [p|] eqn:E; [|exact I].
  apply inv_process; [exact I|]. apply okp_to_view with (b := b); [exact I | apply H; now left |].
  apply held_named with (s := s0); [exact K|]. unfold held in *. now rewrite <- (i_old _ _ I).
Qed.
Lemma inv_start s0 now : fresh s0 -> inv s0 (start s0 now).
Proof.
  intros (F1 & F2 & F3 & F4 & F5 & F6 & F7 & F8 & K).
  assert (I0 : inv s0 s0).
  { constructor; try reflexivity.
    - rewrite F1. intros k p [].
    - rewrite F3. intros k p [].
    - rewrite F5. intros p [].
    - unfold last_pp. rewrite F1, F5. cbn. lia.
    - rewrite F5. reflexivity. }
  assert (I1 : inv s0 (fold_left (try_name now) (names s0) s0)) by (apply inv_tries; auto).
  unfold Reapply_Model.start. cbv zeta. destruct (filter _ _) as [|m ms]; [now apply inv_reapplied|].
  destruct I1 as [V N OL P Q A L Q2]. constructor; assumption.
Qed.
Lemma inv_takes s0 now ps : forall s, inv s0 s -> inv s0 (fold_left (take now) ps s).
Proof.
  induction ps as [|p ps IH]; intros s I; [exact I|]. cbn [fold_left]. apply IH. unfold Reapply_Model.take.
  destruct (existsb _ _) eqn:E; [|exact I]. apply existsb_exists in E as (b & H & E). apply bid_eqb_eq in E. subst b.
  apply inv_process; [exact I|]. apply okp_to_view with (b := id_of p); [exact I | | repeat split].
  now rewrite <- (i_names _ _ I).
Qed.
Lemma inv_dequeue s0 now n : forall s, inv s0 s -> inv s0 (dequeue n now s).
Proof.
  induction n as [|n IH]; intros s I; [exact I|]. cbn [Reapply_Model.dequeue].
  destruct (prev s) as [|[k p] r] eqn:E; [exact I|]. destruct (can_dequeue s k); [|exact I].
  apply IH. pose proof (i_prev _ _ I k p) as O. rewrite E in O. specialize (O (or_introl eq_refl)).
  apply inv_process.
  - destruct I as [V N OL P Q A L Q2]. constructor; try assumption. cbn [prev]. intros j q H. apply Q. rewrite E. now right.
  - destruct O as (O1 & O2 & O3). split; [reflexivity|]. now split.
Qed.
Lemma inv_step s0 s o : inv s0 s -> inv s0 (step s o).
Proof.
  intros I. destruct o as [f now ps | now | | m]; cbn [Reapply_Model.step].
  - unfold Reapply_Model.reply. cbv zeta. pose proof (inv_takes s0 now ps s I) as I1. destruct (_ && _); [now apply inv_reapplied | exact I1].
  - now apply inv_dequeue.
  - destruct (ordered s <? last_pp s) eqn:E; [|exact I]. apply Nat.ltb_lt in E.
    destruct I as [V N OL P Q A L Q2]. constructor; try assumption. unfold last_pp in *. cbn [pps ordered applied]. rewrite max_step; assumption.
  - destruct I as [V N OL P Q A L Q2]. constructor; assumption.
Qed.
Lemma inv_run s0 os : forall s, inv s0 s -> inv s0 (run s os).
Proof. induction os as [|o os IH]; intros s I; [exact I|]. cbn. apply IH. now apply inv_step. Qed.

(** what is never changed, and what is never asked again *)
Lemma process_asked s now p : asked (process s now p) = asked s.
Proof. unfold Reapply_Model.process. cbv zeta. repeat match goal with |- context [if ?b then _ else _] => destruct b end; reflexivity. Qed.
Lemma process_kept s now p : kept (process s now p) = kept s /\ taken (process s now p) = taken s.
Proof. unfold Reapply_Model.process. cbv zeta. repeat match goal with |- context [if ?b then _ else _] => destruct b end; split; reflexivity. Qed.

(** A chain of batches, applied one after the other. *)
Record same (s s' : rep) : Prop := Same { sm_view : view s' = view s; sm_names : names s' = names s; sm_cert : cert s' = cert s;
  sm_ord : ordered s' = ordered s; sm_old : old s' = old s; sm_prev : prev s' = prev s; sm_blamed : blamed s' = blamed s;
  sm_asked : asked s' = asked s; sm_kept : kept s' = kept s; sm_taken : taken s' = taken s; sm_bad : bad_time s' = bad_time s }.
Lemma same_refl s : same s s.
Proof. constructor; reflexivity. Qed.
Lemma same_trans a b c : same a b -> same b c -> same a c.
Proof. intros [] []. constructor; congruence. Qed.
Record ready (k : nat) (s : rep) : Prop := Ready { r_last : last_pp s = Nat.max (ordered s) (k - 1);
  r_pps : forall j p, In (j, p) (pps s) -> j < k; r_tss : forall j r t, In (j, r, t) (tss s) -> j < k }.
Lemma process_good s now p k : 0 < k -> p_seq p = k -> k <= cert s -> ready k s ->
  (ordered s < k -> lat s <= p_time p /\ near dev (p_time p) now /\ digest_of (p_orig p) (p_time p) (p_reqs p) = p_digest p /\ valid (applied s) p = true) ->
  let s' := process s now p in
  same s s' /\ ready (S k) s' /\ lat s' = p_time p /\ lseq s' = Nat.max (lseq s) k /\
  applied s' = (if ordered s <? k then applied s ++ [p] else applied s) /\
  In (k, p) (pps s') /\ (forall j q, In (j, q) (pps s) -> In (j, q) (pps s')).
Proof.
  intros Z E C [RL RP RT] G. cbv zeta. unfold Reapply_Model.process. cbv zeta.
  assert (ST : stamp s now p = (k, p_rest p, now) :: tss s).
  { unfold stamp. destruct (existsb _ _) eqn:X; [|now rewrite E]. exfalso. apply existsb_exists in X as ([[j r] t] & H & X).
    cbn [fst snd] in X. apply andb_true_iff in X as [X _]. apply Nat.eqb_eq in X. apply RT in H. lia. }
  rewrite ST. set (s1 := Rep (view s) _ _ _ _ _ _ _ _ _ _ _ _ _ _ _).
  assert (RD : forall ap, ready (S k) (add s1 p ap)).
  { intros ap. constructor.
    - unfold last_pp, add. cbn [pps ordered]. rewrite max_put. change (fold_right _ _ _) with (last_pp s). change (ordered s1) with (ordered s). lia.
    - unfold add. cbn [pps]. intros j q H. apply in_put in H as [[-> _]|H]; [lia | apply RP in H; lia].
    - unfold add. cbn [tss]. intros j r t [H|H]; [inversion H; lia | apply RT in H; lia]. }
  assert (KP : forall ap j q, In (j, q) (pps s) -> In (j, q) (pps (add s1 p ap))).
  { intros ap j q H. unfold add. cbn [pps]. apply put_other; [|exact H]. apply RP in H. lia. }
  assert (IN : forall ap, In (k, p) (pps (add s1 p ap))).
  { intros ap. unfold add. cbn [pps]. rewrite E. apply put_in. }
  change (ordered s1) with (ordered s). change (cert s1) with (cert s).
  destruct (p_seq p =? 0) eqn:B0; [apply Nat.eqb_eq in B0; lia|].
  destruct ((p_seq p <=? ordered s) && (cert s <? p_seq p)) eqn:B1; [apply andb_true_iff in B1 as [_ B1]; apply Nat.ltb_lt in B1; lia|].
  destruct ((S (cert s) <? p_seq p) && _) eqn:B2; [apply andb_true_iff in B2 as [B2 _]; apply Nat.ltb_lt in B2; lia|].
  rewrite E. destruct (k <=? ordered s) eqn:EO.
  { apply Nat.leb_le in EO. assert (X : ordered s <? k = false) by (apply Nat.ltb_ge; lia). rewrite X.
    split; [constructor; reflexivity|]. split; [apply RD|]. split; [reflexivity|]. split; [unfold add; cbn [lseq]; now rewrite E|].
    split; [reflexivity|]. split; [apply IN | apply KP]. }
  apply Nat.leb_gt in EO. assert (X : ordered s <? k = true) by (apply Nat.ltb_lt; lia). rewrite X.
  destruct (G EO) as (G1 & [G2 G3] & G4 & G5). rewrite G4, Nat.eqb_refl. cbn [negb].
  destruct (has k (pps s1)) eqn:EH; [apply has_in in EH as [q H]; apply RP in H; lia|].
  assert (T : time_ok dev s1 p = true).
  { unfold time_ok. change (lat s1) with (lat s). destruct (p_time p <? lat s) eqn:Y; [apply Nat.ltb_lt in Y; lia|]. rewrite andb_false_r.
    unfold seen_at, s1. cbn [tss find fst snd]. rewrite E, !Nat.eqb_refl. cbn [andb option_map snd]. apply Nat.leb_le. lia. }
  rewrite T. cbn [negb]. change (last_pp s1) with (last_pp s).
  destruct (k <? last_pp s) eqn:EL; [apply Nat.ltb_lt in EL; lia|].
  assert (NX : is_next s1 k = true).
  { unfold is_next. destruct (k =? 1) eqn:Y; [reflexivity|]. apply Nat.eqb_eq. change (last_pp s1) with (last_pp s). lia. }
  rewrite NX. cbn [negb]. change (applied s1) with (applied s). rewrite G5.
  split; [constructor; reflexivity|]. split; [apply RD|]. split; [reflexivity|]. split; [unfold add; cbn [lseq]; now rewrite E|].
  split; [reflexivity|]. split; [apply IN | apply KP].
Qed.
Lemma chain_good now v L : forall k s, view s = v -> 0 < k -> map p_seq L = seq k (length L) -> k + length L <= S (cert s) -> ready k s ->
  good_chain digest_of valid dev now (ordered s) (lat s) (applied s) (map (to_view v) L) ->
  let s' := fold_left (process_old now) L s in
  same s s' /\ ready (k + length L) s' /\ lat s' = last (map p_time L) (lat s) /\
  (L <> [] -> k + length L <= S (lseq s')) /\ lseq s <= lseq s' /\
  applied s' = applied s ++ filter (fun p => ordered s <? p_seq p) (map (to_view v) L) /\
  (forall p, In p L -> In (p_seq p, to_view v p) (pps s')) /\ (forall j q, In (j, q) (pps s) -> In (j, q) (pps s')).
Proof.
  induction L as [|p L IH]; intros k s V Z M C R G; cbn [fold_left].
  { cbv zeta. split; [apply same_refl|]. cbn [length map filter]. rewrite Nat.add_0_r, app_nil_r.
    repeat split; try reflexivity; try (apply R); try congruence; try (intros q []); auto. }
  cbn [map length seq] in M. injection M as M1 M2. cbn [length] in C. cbn [map good_chain] in G. destruct G as [G1 G2].
  assert (PG := process_good s now (to_view v p) k Z M1 ltac:(lia) R).
  change (p_seq (to_view v p)) with (p_seq p) in *. rewrite M1 in G1, G2. specialize (PG G1). cbv zeta in PG.
  assert (EP : process_old now s p = process s now (to_view v p)) by (unfold Reapply_Model.process_old; now rewrite V).
  rewrite EP. set (s1 := process s now (to_view v p)) in *. destruct PG as (SM & R1 & L1 & Q1 & A1 & I1 & K1).
  assert (IH1 := IH (S k) s1). rewrite (sm_view _ _ SM), (sm_cert _ _ SM), (sm_ord _ _ SM), L1, A1 in IH1.
  change (p_time (to_view v p)) with (p_time p) in *.
  specialize (IH1 V ltac:(lia) M2 ltac:(lia) R1 G2). cbv zeta in IH1 |- *.
  destruct IH1 as (SM2 & R2 & L2 & Q2 & Q3 & A2 & I2 & K2).
  split; [now apply same_trans with s1|]. split; [now replace (k + length (p :: L)) with (S k + length L) by (cbn; lia)|].
  split; [rewrite L2; cbn [map]; symmetry; apply last_cons|].
  split. { intros _. cbn [length]. destruct L as [|q L]; [cbn; lia|]. assert (X : q :: L <> []) by discriminate. specialize (Q2 X). lia. }
  split; [lia|]. split.
  { rewrite A2. cbn [map filter]. change (p_seq (to_view v p)) with (p_seq p). rewrite M1. destruct (ordered s <? k); [now rewrite <- app_assoc | reflexivity]. }
  split; [|intros j q H; apply K2, K1, H].
  intros q [<-|H]; [apply K2; rewrite M1; exact I1 | now apply I2].
Qed.

(** What is kept and taken, and the highest number. *)
Record inv2 (s0 s : rep) : Prop := Inv2 { j_cert : cert s = cert s0; j_old : old s = old s0; j_names : names s = names s0;
  j_high : lseq s = lseq s0 \/ exists p, In (lseq s, p) (pps s) }.
Lemma put_has k p l j q : In (j, q) l -> exists q', In (j, q') (put k p l).
Proof.
  intros H. destruct (Nat.eq_dec j k) as [->|N]; [exists p; apply put_in | exists q; now apply put_other].
Qed.
Lemma inv2_add s0 s p ap : inv2 s0 s -> inv2 s0 (add s p ap).
Proof.
  intros [C O N H]. constructor; try assumption. unfold add. cbn [lseq pps].
  destruct (Nat.max_spec (lseq s) (p_seq p)) as [[_ ->]|[_ ->]].
  - right. exists p. apply put_in.
  - destruct H as [H|[q H]]; [now left | right; now apply put_has with q].
Qed.
Lemma inv2_process s0 s now p : inv2 s0 s -> inv2 s0 (process s now p).
Proof.
  intros [C O N H]. unfold Reapply_Model.process. cbv zeta. set (s1 := Rep (view s) _ _ _ _ _ _ _ _ _ _ _ _ _ _ _).
  assert (I1 : inv2 s0 s1) by (constructor; assumption).
  repeat match goal with |- inv2 _ (if ?b then _ else _) => destruct b end; try exact I1; try (now apply inv2_add); constructor; assumption.
Qed.
Lemma tries_pres (P : rep -> Prop) now l : (forall s p, P s -> P (process s now p)) -> forall s, P s -> P (fold_left (try_name now) l s).
Proof.
  intros H. induction l as [|b l IH]; intros s I; [exact I|]. cbn [fold_left]. apply IH. unfold Reapply_Model.try_name.
  destruct (held s b); [now apply H | exact I].
Qed.
Lemma takes_pres (P : rep -> Prop) now l : (forall s p, P s -> P (process s now p)) -> forall s, P s -> P (fold_left (take now) l s).
Proof.
  intros H. induction l as [|b l IH]; intros s I; [exact I|]. cbn [fold_left]. apply IH. unfold Reapply_Model.take.
  destruct (existsb _ _); [now apply H | exact I].
Qed.
Lemma dequeue_pres (P : rep -> Prop) now n : (forall s p, P s -> P (process s now p)) ->
  (forall s r, P s -> P (Rep (view s) (names s) (cert s) (ordered s) (lseq s) (lat s) (old s) (pps s) (tss s) r (bad_time s)
                             (applied s) (blamed s) (asked s) (kept s) (taken s))) -> forall s, P s -> P (dequeue n now s).
Proof.
  intros H H2. induction n as [|n IH]; intros s I; [exact I|]. cbn [Reapply_Model.dequeue].
  destruct (prev s) as [|[k p] r]; [exact I|]. destruct (can_dequeue s k); [|exact I]. apply IH, H, H2, I.
Qed.
Lemma inv2_step s0 s o : inv2 s0 s -> inv2 s0 (step s o).
Proof.
  intros I. destruct o as [f now ps | now | | m]; cbn [Reapply_Model.step].
  - unfold Reapply_Model.reply. cbv zeta. assert (I1 : inv2 s0 (fold_left (take now) ps s)) by (apply takes_pres; [intros; now apply inv2_process | exact I]).
    destruct (_ && _); [destruct I1; constructor; assumption | exact I1].
  - unfold service. apply (dequeue_pres (inv2 s0)); [intros; now apply inv2_process | intros a r [C O N H]; constructor; assumption | exact I].
  - destruct (_ <? _); [destruct I; constructor; assumption | exact I].
  - destruct I; constructor; assumption.
Qed.
Lemma inv2_start s0 now : inv2 s0 (start s0 now).
Proof.
  assert (I1 : inv2 s0 (fold_left (try_name now) (names s0) s0)).
  { apply tries_pres; [intros; now apply inv2_process | constructor; auto]. }
  unfold Reapply_Model.start. cbv zeta. destruct (filter _ _); destruct I1; constructor; assumption.
Qed.
Definition keeps (os : list op) : list nat := flat_map (fun o => match o with Keep m => [m] | _ => [] end) os.
Lemma kept_fold s now ps : let s' := fold_left (take now) ps s in kept s' = kept s /\ taken s' = taken s /\ asked s' = asked s.
Proof.
  cbv zeta. apply (takes_pres (fun x => kept x = kept s /\ taken x = taken s /\ asked x = asked s)); [|auto].
  intros x p (K & T & A). pose proof (process_kept x now p) as [-> ->]. rewrite process_asked. auto.
Qed.
Lemma kept_tries s now l : let s' := fold_left (try_name now) l s in kept s' = kept s /\ taken s' = taken s /\ asked s' = asked s.
Proof.
  cbv zeta. apply (tries_pres (fun x => kept x = kept s /\ taken x = taken s /\ asked x = asked s)); [|auto].
  intros x p (K & T & A). pose proof (process_kept x now p) as [-> ->]. rewrite process_asked. auto.
Qed.
Lemma kept_service s now n : let s' := dequeue n now s in kept s' = kept s /\ taken s' = taken s /\ asked s' = asked s.
Proof.
  cbv zeta. apply (dequeue_pres (fun x => kept x = kept s /\ taken x = taken s /\ asked x = asked s)); [|auto|auto].
  intros x p (K & T & A). pose proof (process_kept x now p) as [-> ->]. rewrite process_asked. auto.
Qed.
Lemma step_keeps s o : taken (step s o) ++ kept (step s o) = (taken s ++ kept s) ++ keeps [o] /\ asked (step s o) = asked s.
Proof.
  destruct o as [f now ps | now | | m]; cbn [Reapply_Model.step keeps flat_map]; rewrite ?app_nil_r.
  - unfold Reapply_Model.reply. cbv zeta. destruct (kept_fold s now ps) as (K & T & A). destruct (_ && _).
    + unfold reapplied. cbn [kept taken asked]. rewrite K, T, A, app_nil_r. auto.
    + rewrite K, T, A. auto.
  - unfold service. destruct (kept_service s now (length (prev s))) as (K & T & A). rewrite K, T, A. auto.
  - destruct (_ <? _); auto.
  - cbn [kept taken asked]. rewrite app_assoc. auto.
Qed.
Lemma run_keeps os : forall s, taken (run s os) ++ kept (run s os) = (taken s ++ kept s) ++ keeps os /\ asked (run s os) = asked s.
Proof.
  induction os as [|o os IH]; intros s; cbn [keeps flat_map]; [rewrite app_nil_r; auto|].
  change (run s (o :: os)) with (run (step s o) os). destruct (IH (step s o)) as [-> ->]. destruct (step_keeps s o) as [-> ->].
  split; [|reflexivity]. rewrite <- app_assoc. f_equal. cbn [keeps flat_map]. now rewrite app_nil_r.
Qed.
Lemma start_keeps s now : taken (start s now) ++ kept (start s now) = taken s ++ kept s /\
  asked (start s now) = asked s ++ match filter (is_missing s) (names s) with [] => [] | ms => [ms] end /\
  (taken (start s now) <> taken s -> filter (is_missing s) (names s) = []).
Proof.
  unfold Reapply_Model.start. cbv zeta. destruct (kept_tries s now (names s)) as (K & T & A). destruct (filter _ _).
  - unfold reapplied. cbn [kept taken asked]. rewrite K, T, A, !app_nil_r. auto.
  - cbn [kept taken asked]. rewrite K, T, A. repeat split. congruence.
Qed.
Lemma taken_high s0 s o : inv2 s0 s -> taken (step s o) <> taken s -> cert s0 <= lseq (step s o).
Proof.
  intros I. destruct o as [f now ps | now | | m]; cbn [Reapply_Model.step].
  - unfold Reapply_Model.reply. cbv zeta. destruct (kept_fold s now ps) as (K & T & A).
    assert (I1 : inv2 s0 (fold_left (take now) ps s)) by (apply takes_pres; [intros; now apply inv2_process | exact I]).
    destruct (_ && _) eqn:E; [|congruence]. intros _. apply andb_true_iff in E as [_ E]. apply Nat.leb_le in E.
    rewrite (j_cert _ _ I1) in E. exact E.
  - unfold service. destruct (kept_service s now (length (prev s))) as (K & T & A). congruence.
  - destruct (_ <? _); intros H; exfalso; apply H; reflexivity.
  - intros H. exfalso. apply H. reflexivity.
Qed.
Lemma high_process s now p : lseq s <= lseq (process s now p).
Proof.
  unfold Reapply_Model.process. cbv zeta. repeat match goal with |- context [if ?b then _ else _] => destruct b end;
  cbn [add blame lseq]; lia.
Qed.
Lemma high_step s o : lseq s <= lseq (step s o).
Proof.
  destruct o as [f now ps | now | | m]; cbn [Reapply_Model.step].
  - unfold Reapply_Model.reply. cbv zeta.
    assert (H : lseq s <= lseq (fold_left (take now) ps s)).
    { apply (takes_pres (fun x => lseq s <= lseq x)); [|lia]. intros x p H. pose proof (high_process x now p). lia. }
    destruct (_ && _); exact H.
  - unfold service. apply (dequeue_pres (fun x => lseq s <= lseq x)); [|auto|lia]. intros x p H. pose proof (high_process x now p). lia.
  - destruct (_ <? _); cbn [lseq]; lia.
  - cbn [lseq]. lia.
Qed.
Lemma run_taken s0 os : forall s, inv2 s0 s -> inv2 s0 (run s os) /\ lseq s <= lseq (run s os) /\
  (taken (run s os) <> taken s -> cert s0 <= lseq (run s os)).
Proof.
  induction os as [|o os IH]; intros s I; [cbn; repeat split; try apply I; try lia; congruence|].
  change (run s (o :: os)) with (run (step s o) os). destruct (IH (step s o) (inv2_step s0 s o I)) as (A & B & C).
  split; [exact A|]. pose proof (high_step s o). split; [lia|]. intros H1.
  destruct (list_eq_dec Nat.eq_dec (taken (step s o)) (taken s)) as [E|E].
  - apply C. congruence.
  - pose proof (taken_high s0 s o I E). lia.
Qed.
Lemma unique_get k p l : NoDup (map fst l) -> In (k, p) l -> get k l = Some p.
Proof.
  induction l as [|[j q] r IH]; cbn [map fst get]; [intros _ []|]. intros N H. inversion N; subst.
  destruct H as [H|H].
  - inversion H; subst. assert (X : key_eqb k k = true) by now apply key_eqb_eq. now rewrite X.
  - destruct (key_eqb k j) eqn:E; [|now apply IH]. apply key_eqb_eq in E. subst. exfalso. apply H2.
    change j with (fst (j, p)). now apply in_map.
Qed.
Lemma tries_held now l : forall s L, (forall s', old s' = old s -> Forall2 (fun b p => held s' b = Some p) l L) ->
  fold_left (try_name now) l s = fold_left (process_old now) L s.
Proof.
  induction l as [|b l IH]; intros s L H.
  - specialize (H s eq_refl). inversion H; subst. reflexivity.
  - pose proof (H s eq_refl) as H0. inversion H0; subst. cbn [fold_left]. unfold Reapply_Model.try_name at 2. rewrite H3.
    apply IH. intros s' E. assert (OE : old (process_old now s y) = old s).
    { unfold Reapply_Model.process_old.
      unfold Reapply_Model.process. cbv zeta. repeat match goal with |- context [if ?b then _ else _] => destruct b end; reflexivity. }
    rewrite OE in E. specialize (H s' E). now inversion H.
Qed.
Lemma tries_missing now l : forall s, (forall b, In b l -> held s b = None) -> fold_left (try_name now) l s = s.
Proof.
  induction l as [|b l IH]; intros s H; [reflexivity|]. cbn [fold_left]. unfold Reapply_Model.try_name at 2.
  rewrite H by now left. apply IH. intros c Hc. apply H. now right.
Qed.
Lemma takes_named now L : forall s N, (forall s', names s' = names s -> Forall (fun p => existsb (bid_eqb (id_of p)) (names s') = true) L) -> N = names s ->
  fold_left (take now) L s = fold_left (process_old now) L s.
Proof.
  induction L as [|p L IH]; intros s N H E; [reflexivity|]. cbn [fold_left]. unfold Reapply_Model.take at 2.
  pose proof (H s eq_refl) as H0. inversion H0; subst. rewrite H3. apply IH with (N := names s).
  - intros s' E'. assert (NE : names (process_old now s p) = names s).
    { unfold Reapply_Model.process_old, Reapply_Model.process. cbv zeta. repeat match goal with |- context [if ?b then _ else _] => destruct b end; reflexivity. }
    rewrite NE in E'. specialize (H s' E'). now inversion H.
  - unfold Reapply_Model.process_old, Reapply_Model.process. cbv zeta. repeat match goal with |- context [if ?b then _ else _] => destruct b end; reflexivity.
Qed.
End Env.
