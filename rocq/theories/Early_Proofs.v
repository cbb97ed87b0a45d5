(** Proofs about Pre-Prepares that come too early (C93). *)
From Coq Require Import List Arith Bool Lia.
From Verif Require Import Early_Model Early_Spec.
Import ListNotations.

Section Valid.
Variable valid : list pp -> pp -> bool.
Variable cf : nat.
Notation receive := (receive valid cf).
Notation dequeue := (dequeue valid cf).
Notation step := (step valid cf).
Notation run := (run valid cf).

Lemma put_in k p l e : In e (put k p l) -> e = (k, p) \/ In e l.
Proof.
  induction l as [|(k', p') l IH]; cbn [put]; [intros [<-|[]]; auto|]. destruct (k <? k'); [intros [<-|I]; auto|].
  destruct (k =? k'); [intros [<-|I]; [auto|right; right; exact I]|]. intros [<-|I]; [right; left; reflexivity|]. destruct (IH I) as [->|Q]; [auto|right; right; exact Q].
Qed.
Lemma put_has k p l : In (k, p) (put k p l).
Proof.
  induction l as [|(k', p') l IH]; cbn [put]; [left; reflexivity|]. destruct (k <? k'); [left; reflexivity|]. destruct (k =? k'); [left; reflexivity|right; exact IH].
Qed.
Lemma put_keeps k p l e : In e l -> fst e <> k -> In e (put k p l).
Proof.
  induction l as [|(k', p') l IH]; cbn [put]; intros I N; [destruct I|]. destruct (k <? k') eqn:E1; [right; exact I|].
  destruct (Nat.eqb_spec k k') as [->|E2]; destruct I as [<-|I].
  - cbn in N. congruence.
  - right. exact I.
  - left. reflexivity.
  - right. apply IH; assumption.
Qed.
Inductive sorted : list (nat * pp) -> Prop :=
| SNil : sorted []
| SCons k p l : (forall e, In e l -> k < fst e) -> sorted l -> sorted ((k, p) :: l).
Lemma put_sorted k p l : sorted l -> sorted (put k p l).
Proof.
  induction 1 as [|k' p' l H So IH]; cbn [put]; [constructor; [intros e []|constructor]|].
  destruct (Nat.ltb_spec k k') as [L|L].
  - constructor; [|constructor; assumption]. intros e [<-|I]; cbn; [exact L|]. pose proof (H e I). lia.
  - destruct (Nat.eqb_spec k k') as [->|N]; [constructor; assumption|]. constructor; [|exact IH].
    intros e I. apply put_in in I as [->|I]; [cbn; lia|apply H; exact I].
Qed.

(** *** what always holds *)
Record good (s : rep) : Prop := Good {
  g_keys : forall e, In e (prev s) -> fst e = p_seq (snd e);
  g_sorted : sorted (prev s);
  g_ord : ordered s <= last s;
  g_log : map p_seq (applied s) = seq 1 (last s) }.
Lemma good_init : good init.
Proof. split; [intros e []|constructor|cbn; lia|reflexivity]. Qed.
Lemma good_receive s p : good s -> good (receive s p).
Proof.
  intros [K So O L]. unfold Early_Model.receive. destruct (Nat.leb_spec (p_seq p) (ordered s)); [split; assumption|].
  destruct (Nat.leb_spec (p_seq p) (last s)) as [Q|Q]; [split; assumption|].
  destruct (missing s p) as [|r m]; [|split; assumption].
  destruct (negb (is_next s (p_seq p))) eqn:N.
  - split; cbn [prev ordered last applied]; try assumption; [|apply put_sorted; exact So].
    intros e I. apply put_in in I as [->|I]; [reflexivity|apply K; exact I].
  - destruct (valid (applied s) p); [|split; assumption]. split; cbn [prev ordered last applied]; try assumption; [lia|].
    apply negb_false_iff in N. unfold is_next in N.
    assert (E : p_seq p = S (last s)) by (destruct (Nat.eqb_spec (p_seq p) 1); [lia|apply Nat.eqb_eq in N; exact N]).
    rewrite map_app, L. cbn [map]. rewrite E, seq_S. reflexivity.
Qed.
Lemma puts_good (es : list (pp * list nat)) : forall l, (forall e, In e l -> fst e = p_seq (snd e)) -> sorted l ->
  let l' := fold_left (fun l e => put (p_seq (fst e)) (fst e) l) es l in (forall e, In e l' -> fst e = p_seq (snd e)) /\ sorted l'.
Proof.
  induction es as [|x es IH]; intros l K So; cbn [fold_left]; [split; assumption|]. apply IH; [|apply put_sorted; exact So].
  intros e I. apply put_in in I as [->|I]; [reflexivity|apply K; exact I].
Qed.
Lemma good_check s : good s -> good (check_pending s).
Proof.
  intros [K So O L]. unfold check_pending. destruct (puts_good (rev (filter is_ready (map (now_missing s) (pend s)))) (prev s) K So) as (K' & S').
  split; cbn [prev ordered last applied]; assumption.
Qed.
Lemma good_tail s k p r : good s -> prev s = (k, p) :: r -> good (Rep (last s) (ordered s) (seen s) (fin s) (pend s) r (applied s) (asked s)).
Proof.
  intros [K So O L] E. rewrite E in *. split; cbn [prev ordered last applied]; try assumption; [intros e I; apply K; right; exact I|inversion So; assumption].
Qed.
Lemma good_dequeue f : forall s, good s -> good (dequeue f s).
Proof.
  induction f as [|f IH]; intros s G; cbn [Early_Model.dequeue]; [exact G|]. destruct (prev s) as [|(k, p) r] eqn:E; [exact G|]. destruct (can_dequeue s k); [|exact G].
  apply IH. apply good_receive. apply (good_tail s k p r G E).
Qed.
Lemma good_step s o : good s -> good (step s o).
Proof.
  intros G. destruct o as [p|r|r|r| |]; cbn [Early_Model.step].
  - apply good_receive. exact G.
  - destruct G; split; assumption.
  - destruct G; split; assumption.
  - destruct G; split; assumption.
  - destruct G as [K So O L]. destruct (Nat.ltb_spec (ordered s) (last s)); [|split; assumption]. split; cbn [prev ordered last applied]; try assumption; lia.
  - unfold service. apply good_dequeue. apply good_check. exact G.
Qed.
Lemma good_run os : forall s, good s -> good (run s os).
Proof. induction os as [|o os IH]; intros s G; [exact G|]. apply IH. apply good_step. exact G. Qed.

(** *** what is new in the log *)
Definition grows (s t : rep) : Prop := seen t = seen s /\ exists new, applied t = applied s ++ new /\ forall p, In p new -> missing s p = [].
Lemma grows_refl s : grows s s.
Proof. split; [reflexivity|]. exists []. split; [symmetry; apply app_nil_r|intros p []]. Qed.
Lemma grows_same s t : seen t = seen s -> applied t = applied s -> grows s t.
Proof. intros E A. split; [exact E|]. exists []. split; [rewrite A; symmetry; apply app_nil_r|intros p []]. Qed.
Lemma grows_trans s t u : grows s t -> grows t u -> grows s u.
Proof.
  intros (F & n & A & M) (F' & n' & A' & M'). split; [congruence|]. exists (n ++ n'). split; [rewrite A', A, app_assoc; reflexivity|].
  intros p I. apply in_app_iff in I as [I|I]; [apply M; exact I|]. rewrite <- (M' p I). unfold missing, known. rewrite F. reflexivity.
Qed.
Lemma grows_receive s p : grows s (receive s p).
Proof.
  unfold Early_Model.receive. destruct (p_seq p <=? ordered s); [apply grows_refl|]. destruct (p_seq p <=? last s); [apply grows_refl|].
  destruct (missing s p) as [|r m] eqn:E; [|apply grows_same; reflexivity]. destruct (negb (is_next s (p_seq p))); [apply grows_same; reflexivity|]. destruct (valid (applied s) p); [|apply grows_refl].
  split; [reflexivity|]. exists [p]. split; [reflexivity|]. intros q [<-|[]]. exact E.
Qed.
Lemma grows_dequeue f : forall s, grows s (dequeue f s).
Proof.
  induction f as [|f IH]; intros s; cbn [Early_Model.dequeue]; [apply grows_refl|]. destruct (prev s) as [|(k, p) r] eqn:E; [apply grows_refl|]. destruct (can_dequeue s k); [|apply grows_refl].
  refine (grows_trans _ (Rep (last s) (ordered s) (seen s) (fin s) (pend s) r (applied s) (asked s)) _ (grows_same s _ eq_refl eq_refl) (grows_trans _ _ _ (grows_receive _ p) (IH _))).
Qed.
Lemma grows_service s : grows s (service valid cf s).
Proof. unfold service. apply (grows_trans _ (check_pending s)); [apply grows_same; reflexivity|apply grows_dequeue]. Qed.
Lemma new_known s o : exists new, applied (step s o) = applied s ++ new /\ forall p r, In p new -> In r (p_reqs p) -> In r (seen (step s o)).
Proof.
  assert (Q : forall t, grows s t -> exists new, applied t = applied s ++ new /\ forall p r, In p new -> In r (p_reqs p) -> In r (seen t)).
  { intros t (F & n & A & M). exists n. split; [exact A|]. intros p r I J. rewrite F. pose proof (M p I) as E. unfold missing in E.
    destruct (known s r) eqn:Kn.
    - unfold known in Kn. apply existsb_exists in Kn as (x & X & Y). apply Nat.eqb_eq in Y. congruence.
    - exfalso. assert (B : In r (filter (fun r => negb (known s r)) (p_reqs p))) by (apply filter_In; split; [exact J|rewrite Kn; reflexivity]). rewrite E in B. exact B. }
  destruct o as [p|r|r|r| |]; cbn [Early_Model.step].
  - apply Q. apply grows_receive.
  - exists []. cbn [applied]. split; [symmetry; apply app_nil_r|intros p q []].
  - exists []. cbn [applied]. split; [symmetry; apply app_nil_r|intros p q []].
  - exists []. cbn [applied]. split; [symmetry; apply app_nil_r|intros p q []].
  - exists []. split; [destruct (ordered s <? last s); symmetry; apply app_nil_r|intros p q []].
  - apply Q. apply grows_service.
Qed.

(** *** nothing is made up, and nothing is lost *)
Definition from (C : pp -> Prop) (s : rep) : Prop := (forall p, kept s p -> C p) /\ (forall p, In p (applied s) -> C p).
Lemma from_receive C s p : from C s -> C p -> from C (receive s p).
Proof.
  intros (A & B) Cp. unfold Early_Model.receive. destruct (p_seq p <=? ordered s); [split; assumption|]. destruct (p_seq p <=? last s); [split; assumption|].
  destruct (missing s p) as [|r m].
  - destruct (negb (is_next s (p_seq p))).
    + split; [|exact B]. intros q [I|I]; [apply A; left; exact I|]. cbn [prev] in I. apply in_map_iff in I as (e & <- & I). apply put_in in I as [->|I]; [exact Cp|].
      apply A. right. apply in_map. exact I.
    + destruct (valid (applied s) p); [|split; assumption]. split; [exact A|]. intros q I. cbn [applied] in I. apply in_app_iff in I as [I|[<-|[]]]; [apply B; exact I|exact Cp].
  - split; [|exact B]. intros q [I|I]; [|apply A; right; exact I]. cbn [pend] in I. rewrite map_app in I. apply in_app_iff in I as [I|[<-|[]]]; [apply A; left; exact I|exact Cp].
Qed.
Lemma puts_in es : forall l q, In q (map snd (fold_left (fun l e => put (p_seq (fst e)) (fst e) l) es l)) -> In q (map (fst (A:=pp) (B:=list nat)) es) \/ In q (map snd l).
Proof.
  induction es as [|x es IH]; intros l q I; cbn [fold_left] in I; [right; exact I|]. apply IH in I as [I|I]; [left; right; exact I|].
  apply in_map_iff in I as (e & <- & I). apply put_in in I as [->|I]; [left; left; reflexivity|right; apply in_map; exact I].
Qed.
Lemma pend_map s : map fst (map (now_missing s) (pend s)) = map fst (pend s).
Proof. rewrite map_map. reflexivity. Qed.
Lemma from_check C s : from C s -> from C (check_pending s).
Proof.
  intros (A & B). split; [|exact B]. intros q [I|I]; unfold check_pending in I; cbn [pend prev] in I.
  - apply A. left. rewrite <- pend_map. apply in_map_iff in I as (e & <- & I). apply filter_In in I as (I & _). apply in_map. exact I.
  - apply puts_in in I as [I|I]; [|apply A; right; exact I]. apply A. left. rewrite <- pend_map. apply in_map_iff in I as (e & <- & I). apply in_rev in I. apply filter_In in I as (I & _). apply in_map. exact I.
Qed.
Lemma from_dequeue C f : forall s, from C s -> from C (dequeue f s).
Proof.
  induction f as [|f IH]; intros s F; cbn [Early_Model.dequeue]; [exact F|]. destruct (prev s) as [|(k, p) r] eqn:E; [exact F|]. destruct (can_dequeue s k); [|exact F].
  apply IH. apply from_receive.
  - destruct F as (A & B). split; [|exact B]. intros q [I|I]; [apply A; left; exact I|]. apply A. right. rewrite E. right. exact I.
  - destruct F as (A & B). apply A. right. rewrite E. left. reflexivity.
Qed.
Lemma from_run os : forall (C : pp -> Prop) s, from C s -> from (fun p => C p \/ came os p) (run s os).
Proof.
  induction os as [|o os IH]; intros C s F.
  - destruct F as (A & B). split; intros p I; left; auto.
  - assert (F1 : from (fun p => C p \/ o = Receive p) (step s o)).
    { assert (F0 : from (fun p => C p \/ o = Receive p) s) by (destruct F as (A & B); split; intros q I; left; auto).
      destruct o as [p|r|r|r| |]; cbn [Early_Model.step].
      - apply from_receive; [exact F0|right; reflexivity].
      - exact F0.
      - exact F0.
      - exact F0.
      - destruct (ordered s <? last s); exact F0.
      - apply from_dequeue. apply from_check. exact F0. }
    destruct (IH _ _ F1) as (A & B). split; intros q I; [destruct (A q I) as [[Q|Q]|Q]|destruct (B q I) as [[Q|Q]|Q]]; try (left; exact Q); right; try (right; exact Q); left; exact Q.
Qed.

(** *** a correct primary *)
Variable P : nat -> pp.
Hypothesis P_seq : forall n, p_seq (P n) = n.
Hypothesis P_ok : forall n, valid (map P (seq 1 n)) (P (S n)) = true.
Definition own (p : pp) : Prop := p = P (p_seq p).
(** all that waits is the primary's, what was applied is [P 1] to [P last]; what waits has nothing missing but what is noted *)
Record on (D : nat -> Prop) (s : rep) : Prop := On {
  o_good : good s;
  o_from : from own s;
  o_has : forall n, D n -> last s < n -> kept s (P n);
  o_noted : forall p m r, In (p, m) (pend s) -> In r (p_reqs p) -> final s r = false -> In r m;
  o_noted' : forall p m r, In (p, m) (pend s) -> In r m -> In r (p_reqs p);
  o_seen : forall p r, In p (map snd (prev s)) -> In r (p_reqs p) -> known s r = true }.
Lemma log_eq s : good s -> from own s -> applied s = map P (seq 1 (last s)).
Proof.
  intros G (_ & B). rewrite <- (g_log s G), map_map. rewrite <- (map_id (applied s)) at 1. apply map_ext_in. intros p I. apply B. exact I.
Qed.
Lemma missing_none s p r : missing s p = [] -> In r (p_reqs p) -> known s r = true.
Proof.
  intros E J. destruct (known s r) eqn:Kn; [reflexivity|]. exfalso.
  assert (B : In r (missing s p)) by (apply filter_In; split; [exact J|rewrite Kn; reflexivity]). rewrite E in B. exact B.
Qed.
Lemma on_receive D s n : on D s -> on (fun k => D k \/ k = n) (receive s (P n)).
Proof.
  intros [G F H Nn N' Ns]. assert (Own : own (P n)) by (unfold own; rewrite P_seq; reflexivity).
  split; [apply good_receive; exact G|apply from_receive; [exact F|exact Own]| | | |].
  - intros k Dk L. unfold Early_Model.receive in *. rewrite P_seq in *. destruct (Nat.leb_spec n (ordered s)) as [Q|Q].
    { destruct Dk as [Dk| ->]; [apply H; assumption|]. pose proof (g_ord s G). lia. }
    destruct (Nat.leb_spec n (last s)) as [Q'|Q'].
    { destruct Dk as [Dk| ->]; [apply H; assumption|lia]. }
    destruct (missing s (P n)) as [|r m] eqn:E.
    + destruct (negb (is_next s n)) eqn:X.
      * cbn [last] in L. destruct (Nat.eq_dec k n) as [->|Nk]; [right; cbn [prev]; apply (in_map snd _ (n, P n)); apply put_has|].
        destruct Dk as [Dk|Dk]; [|congruence]. destruct (H k Dk L) as [I|I]; [left; exact I|]. right. cbn [prev].
        apply in_map_iff in I as (e & Ee & I). apply in_map_iff. exists e. split; [exact Ee|]. apply put_keeps; [exact I|].
        rewrite (g_keys s G e I), Ee, P_seq. exact Nk.
      * assert (En : n = S (last s)) by (apply negb_false_iff in X; unfold is_next in X; destruct (Nat.eqb_spec n 1); [lia|apply Nat.eqb_eq in X; exact X]).
        assert (V : valid (applied s) (P n) = true) by (rewrite (log_eq s G F), En; apply P_ok).
        rewrite V in *. cbn [last] in L. destruct Dk as [Dk| ->]; [|lia]. apply (H k Dk). lia.
    + cbn [last] in L. destruct Dk as [Dk| ->].
      * destruct (H k Dk L) as [I|I]; [left; cbn [pend]; rewrite map_app; apply in_app_iff; left; exact I|right; exact I].
      * left. cbn [pend]. rewrite map_app. apply in_app_iff. right. left. reflexivity.
  - intros p m r. unfold Early_Model.receive. destruct (p_seq (P n) <=? ordered s); [apply Nn|]. destruct (p_seq (P n) <=? last s); [apply Nn|].
    destruct (missing s (P n)) as [|r0 m0] eqn:E.
    + destruct (negb (is_next s (p_seq (P n)))); [apply Nn|]. destruct (valid (applied s) (P n)); apply Nn.
    + cbn [pend]. intros I J Kn. apply in_app_iff in I as [I|[I|[]]]; [apply (Nn p m r I J Kn)|]. injection I as <- <-. unfold bad. apply filter_In. split; [exact J|].
      change (final s r = false) in Kn. rewrite Kn. reflexivity.
  - intros p m r. unfold Early_Model.receive. destruct (p_seq (P n) <=? ordered s); [apply N'|]. destruct (p_seq (P n) <=? last s); [apply N'|].
    destruct (missing s (P n)) as [|r0 m0] eqn:E.
    + destruct (negb (is_next s (p_seq (P n)))); [apply N'|]. destruct (valid (applied s) (P n)); apply N'.
    + cbn [pend]. intros I J. apply in_app_iff in I as [I|[I|[]]]; [apply (N' p m r I J)|]. injection I as <- <-. unfold bad in J. apply filter_In in J. tauto.
  - intros p r. unfold Early_Model.receive. destruct (p_seq (P n) <=? ordered s); [apply Ns|]. destruct (p_seq (P n) <=? last s); [apply Ns|].
    destruct (missing s (P n)) as [|r0 m0] eqn:E; [|apply Ns].
    destruct (negb (is_next s (p_seq (P n)))); [|destruct (valid (applied s) (P n)); apply Ns]. cbn [prev]. intros I J.
    apply in_map_iff in I as (e & <- & I). apply put_in in I as [->|I]; [|apply (Ns (snd e) r); [apply in_map; exact I|exact J]].
    cbn [snd] in J. change (known s r = true). apply missing_none with (p := P n); assumption.
Qed.
Lemma puts_keep es : forall l q, (forall e, In e l -> fst e = p_seq (snd e)) -> (forall e, In e es -> own (fst e)) -> own q ->
  In q (map (fst (A:=pp) (B:=list nat)) es) \/ In q (map snd l) -> In q (map snd (fold_left (fun l e => put (p_seq (fst e)) (fst e) l) es l)).
Proof.
  induction es as [|x es IH]; intros l q K O Oq I; cbn [fold_left]; [destruct I as [[]|I]; exact I|]. apply IH.
  - intros e J. apply put_in in J as [->|J]; [reflexivity|apply K; exact J].
  - intros e J. apply O. right. exact J.
  - exact Oq.
  - assert (X : In (fst x) (map snd (put (p_seq (fst x)) (fst x) l))) by apply (in_map snd _ (p_seq (fst x), fst x)), put_has.
    destruct I as [[<-|I]|I]; [right; exact X|left; exact I|]. right. destruct (Nat.eq_dec (p_seq q) (p_seq (fst x))) as [E|Ne].
    + pose proof (O x (or_introl eq_refl)) as Ox. unfold own in *. rewrite Oq, E, <- Ox. exact X.
    + apply in_map_iff in I as (e & Ee & I). apply in_map_iff. exists e. split; [exact Ee|]. apply put_keeps; [exact I|]. rewrite (K e I), Ee. exact Ne.
Qed.
Lemma on_check D s : on D s -> on D (check_pending s).
Proof.
  intros [G F H Nn N' Ns]. split; [apply good_check; exact G|apply from_check; exact F| | | |].
  - intros n Dn L. cbn in L. destruct (H n Dn L) as [I|I].
    + rewrite <- pend_map in I. apply in_map_iff in I as (e & Ee & I). destruct (is_ready e) eqn:R.
      * right. unfold check_pending. cbn [prev]. apply puts_keep.
        -- apply (g_keys s G).
        -- intros x X. apply in_rev in X. apply filter_In in X as (X & _). apply (proj1 F). left. rewrite <- pend_map. apply in_map. exact X.
        -- unfold own. rewrite P_seq. reflexivity.
        -- left. apply in_map_iff. exists e. split; [exact Ee|]. apply in_rev. rewrite rev_involutive. apply filter_In. split; assumption.
      * left. unfold check_pending. cbn [pend]. apply in_map_iff. exists e. split; [exact Ee|]. apply filter_In. split; [exact I|]. rewrite R. reflexivity.
    + right. unfold check_pending. cbn [prev]. apply puts_keep.
      * apply (g_keys s G).
      * intros x X. apply in_rev in X. apply filter_In in X as (X & _). apply (proj1 F). left. rewrite <- pend_map. apply in_map. exact X.
      * unfold own. rewrite P_seq. reflexivity.
      * right. exact I.
  - intros p m r I J Kn. unfold check_pending in I. cbn [pend] in I. apply filter_In in I as (I & _). apply in_map_iff in I as (e & Ee & I).
    unfold now_missing in Ee. injection Ee as <- <-. change (final s r = false) in Kn. apply filter_In. rewrite Kn. split; [|reflexivity]. apply (Nn (fst e) (snd e) r); [destruct e; exact I|exact J|exact Kn].
  - intros p m r I J. unfold check_pending in I. cbn [pend] in I. apply filter_In in I as (I & _). apply in_map_iff in I as (e & Ee & I).
    unfold now_missing in Ee. injection Ee as <- <-. apply filter_In in J as (J & _). apply (N' (fst e) (snd e) r); [destruct e; exact I|exact J].
  - intros p r I J. unfold check_pending in I. cbn [prev] in I. apply puts_in in I as [I|I]; [|apply (Ns p r I J)].
    apply in_map_iff in I as (e & <- & I). apply in_rev in I. apply filter_In in I as (I & R). apply in_map_iff in I as (e0 & <- & I).
    unfold is_ready, now_missing in R. cbn [snd] in R. destruct (filter (fun r => negb (final s r)) (snd e0)) eqn:E; [|discriminate].
    change (known s r = true). cbn [now_missing fst] in J. destruct (final s r) eqn:Fi; [unfold final in Fi; apply andb_true_iff in Fi; tauto|].
    destruct (known s r) eqn:Kn; [reflexivity|]. exfalso. pose proof (Nn (fst e0) (snd e0) r) as X. assert (I' : In (fst e0, snd e0) (pend s)) by (destruct e0; exact I).
    specialize (X I' J Fi). assert (B : In r (filter (fun r => negb (final s r)) (snd e0))) by (apply filter_In; split; [exact X|rewrite Fi; reflexivity]). rewrite E in B. exact B.
Qed.
(** dequeuing, if everything applied is ordered: every turn takes the first, if it is the next or ordered *)
Lemma on_tail D s k p r : on D s -> prev s = (k, p) :: r -> k = p_seq p /\ p = P k /\
  on (fun n => D n /\ n <> k) (Rep (last s) (ordered s) (seen s) (fin s) (pend s) r (applied s) (asked s)).
Proof.
  intros [G F H Nn N' Ns] E. assert (Ek : k = p_seq p) by (apply (g_keys s G (k, p)); rewrite E; left; reflexivity).
  assert (Ep : p = P k) by (rewrite Ek; apply (proj1 F); right; rewrite E; left; reflexivity). split; [exact Ek|]. split; [exact Ep|].
  split; [apply (good_tail s k p r G E)| | | |exact N'|intros q r0 I; apply (Ns q r0); rewrite E; right; exact I].
  - destruct F as (A & B). split; [|exact B]. intros q [I|I]; [apply A; left; exact I|]. apply A. right. rewrite E. right. exact I.
  - intros n (Dn & Nk) L. destruct (H n Dn L) as [I|I]; [left; exact I|]. rewrite E in I. destruct I as [I|I]; [cbn in I; exfalso; apply Nk; apply (f_equal p_seq) in I; rewrite P_seq in I; congruence|]. right. exact I.
  - exact Nn.
Qed.
Lemma on_weaken (D D' : nat -> Prop) s : (forall n, D' n -> D n) -> on D s -> on D' s.
Proof. intros W [G F H Nn N' Ns]. split; try assumption. intros n Dn. apply H. apply W. exact Dn. Qed.
Lemma on_dequeue D f : forall s, on D s -> on D (dequeue f s).
Proof.
  induction f as [|f IH]; intros s O; cbn [Early_Model.dequeue]; [exact O|]. destruct (prev s) as [|(k, p) r] eqn:E; [exact O|]. destruct (can_dequeue s k); [|exact O].
  destruct (on_tail D s k p r O E) as (Ek & -> & O'). apply IH. refine (on_weaken _ D _ _ (on_receive _ _ k O')). intros n Dn. destruct (Nat.eq_dec n k); [right; assumption|left; split; assumption].
Qed.
Lemma on_run os : forall D s, only_from P os -> nothing_forgotten os -> on D s -> on (fun n => D n \/ came os (P n)) (run s os).
Proof.
  induction os as [|o os IH]; intros D s Of Nf O.
  - refine (on_weaken D _ _ _ O). intros n [Q|[]]. exact Q.
  - assert (O1 : on (fun n => D n \/ o = Receive (P n)) (step s o)).
    { destruct o as [p|r|r|r| |]; cbn [Early_Model.step].
      - assert (Ep : p = P (p_seq p)) by (apply Of; left; reflexivity). rewrite Ep. refine (on_weaken _ _ _ _ (on_receive D s (p_seq p) O)).
        intros n [Q|Q]; [left; exact Q|]. right. injection Q as Q. apply (f_equal p_seq) in Q. rewrite !P_seq in Q. symmetry. exact Q.
      - destruct O as [G F H Nn N' Ns]. split; [destruct G; split; assumption|exact F| | |exact N'|].
        + intros n [Dn|Dn]; [apply H; exact Dn|discriminate].
        + intros p m x I J Kn. apply (Nn p m x I J). unfold final, known in *. cbn [seen fin existsb] in Kn.
          destruct (existsb (Nat.eqb x) (seen s)); [|reflexivity]. rewrite orb_true_r in Kn. exact Kn.
        + intros p x I J. unfold known. cbn [seen existsb]. fold (known s x). rewrite (Ns p x I J). apply orb_true_r.
      - destruct O as [G F H Nn N' Ns]. split; [destruct G; split; assumption|exact F| | |exact N'|exact Ns].
        + intros n [Dn|Dn]; [apply H; exact Dn|discriminate].
        + intros p m x I J Kn. apply (Nn p m x I J). unfold final, known in *. cbn [seen fin existsb] in Kn.
          destruct (existsb (Nat.eqb x) (fin s)); [rewrite orb_true_r in Kn; exact Kn|apply andb_false_r].
      - exfalso. apply (Nf r). left. reflexivity.
      - destruct O as [G F H Nn N' Ns]. assert (Gs := good_step s Order G). cbn [Early_Model.step] in Gs. split; [exact Gs| | | | |]; destruct (ordered s <? last s); try exact F; try exact Nn; try exact N'; try exact Ns;
        (intros n [Dn|Dn]; [apply H; exact Dn|discriminate]).
      - refine (on_weaken D _ _ _ _); [intros n [Q|Q]; [exact Q|discriminate]|]. apply on_dequeue. apply on_check. exact O. }
    refine (on_weaken _ _ _ _ (IH _ _ _ _ O1)).
    + intros n [Q|[Q|Q]]; [left; left; exact Q|left; right; exact Q|right; exact Q].
    + intros p C. apply Of. right. exact C.
    + intros r C. apply (Nf r). right. exact C.
Qed.
Lemma on_init : on (fun _ => False) init.
Proof. split; [apply good_init|split; [intros p [[]|[]]|intros p []]|intros n []|intros p m r []|intros p m r []|intros p r []]. Qed.

(** *** complete, if all that was applied is ordered *)
Lemma receive_facts s n : last s <= last (receive s (P n)) /\ ordered (receive s (P n)) = ordered s /\ fin (receive s (P n)) = fin s.
Proof.
  unfold Early_Model.receive. rewrite P_seq. destruct (n <=? ordered s); [repeat split; lia|]. destruct (Nat.leb_spec n (last s)); [repeat split; lia|].
  destruct (missing s (P n)); [|repeat split; cbn [last]; lia]. destruct (negb (is_next s n)); [repeat split; cbn [last]; lia|].
  destruct (valid (applied s) (P n)); repeat split; cbn [last]; lia.
Qed.
(** what is said of the first ones that wait: those below [b] are ordered *)
Lemma dequeue_all f : forall s D, on D s -> length (prev s) <= f -> (forall e, In e (prev s) -> fst e <= ordered s \/ last s < fst e) ->
  (forall e, In e (prev s) -> missing s (snd e) = []) -> (forall n, D n -> last s < n -> In (P n) (map snd (prev s))) ->
  ~ D (S (last (dequeue f s))).
Proof.
  induction f as [|f IH]; intros s D O Lf Hk Hm Hd; cbn [Early_Model.dequeue].
  - destruct (prev s) as [|e r] eqn:E; [|cbn in Lf; lia]. intros Dn. exact (Hd _ Dn (Nat.lt_succ_diag_r _)).
  - destruct (prev s) as [|(k, p) r] eqn:E.
    + intros Dn. exact (Hd _ Dn (Nat.lt_succ_diag_r _)).
    + pose proof O as [G F H Nn N' Ns]. destruct (on_tail D s k p r O E) as (Ek & -> & O').
      assert (Sr : forall e, In e r -> k < fst e) by (pose proof (g_sorted s G) as S0; rewrite E in S0; inversion S0; subst; assumption).
      destruct (can_dequeue s k) eqn:C.
      * set (s1 := Rep (last s) (ordered s) (seen s) (fin s) (pend s) r (applied s) (asked s)) in *.
        destruct (Nat.leb_spec k (ordered s)) as [Q|Q].
        -- assert (R1 : receive s1 (P k) = s1) by (unfold Early_Model.receive; rewrite P_seq; change (ordered s1) with (ordered s); destruct (Nat.leb_spec k (ordered s)); [reflexivity|lia]).
           rewrite R1. intros Dn. refine (IH s1 (fun n => D n /\ n <> k) O' _ _ _ _ _).
           ++ cbn in Lf |- *. lia.
           ++ intros e I. apply Hk. right. exact I.
           ++ intros e I. apply Hm. right. exact I.
           ++ intros n (Dn' & Nk) L. destruct (Hd n Dn' L) as [I|I]; [cbn in I; exfalso; apply Nk; apply (f_equal p_seq) in I; rewrite !P_seq in I; congruence|exact I].
           ++ split; [exact Dn|]. intros X. assert (M : forall f s', last s' <= last (dequeue f s')).
              { clear. induction f as [|f IH]; intros s'; cbn [Early_Model.dequeue]; [lia|]. destruct (prev s') as [|(k', p') r']; [lia|]. destruct (can_dequeue s' k'); [|lia].
                refine (Nat.le_trans _ _ _ _ (IH _)). unfold Early_Model.receive. cbn [ordered last applied missing]. 
                destruct (p_seq p' <=? ordered s'); [cbn [last]; lia|]. destruct (Nat.leb_spec (p_seq p') (last s')); [cbn [last]; lia|].
                destruct (missing _ p'); [|cbn [last]; lia]. destruct (negb _); [cbn [last]; lia|]. destruct (valid _ p'); cbn [last]; lia. }
              pose proof (M f s1) as M1. change (last s1) with (last s) in M1. pose proof (g_ord s G). lia.
        -- assert (Ln : k = S (last s)).
           { unfold can_dequeue, is_next in C. apply orb_true_iff in C as [C|C]; [|apply Nat.leb_le in C; lia].
             destruct (Hk (k, P k) (or_introl eq_refl)) as [X|X]; cbn [fst] in X; [lia|]. destruct (Nat.eqb_spec k 1); [lia|]. apply Nat.eqb_eq in C. exact C. }
           assert (R1 : receive s1 (P k) = Rep k (ordered s) (seen s) (fin s) (pend s) r (applied s ++ [P k]) (asked s)).
           { unfold Early_Model.receive. rewrite P_seq. change (ordered s1) with (ordered s). change (last s1) with (last s). destruct (Nat.leb_spec k (ordered s)); [lia|]. destruct (Nat.leb_spec k (last s)); [lia|].
             assert (M0 : missing s1 (P k) = []) by (apply (Hm (k, P k)); left; reflexivity). rewrite M0.
             assert (X : is_next s1 k = true) by (unfold is_next; change (last s1) with (last s); rewrite Ln, Nat.eqb_refl; destruct (S (last s) =? 1); reflexivity). rewrite X. cbn [negb].
             assert (V : valid (applied s1) (P k) = true) by (change (applied s1) with (applied s); rewrite (log_eq s G F), Ln; apply P_ok). rewrite V. reflexivity. }
           rewrite R1. intros Dn. refine (IH _ D _ _ _ _ _ Dn).
           ++ rewrite <- R1. refine (on_weaken _ D _ _ (on_receive _ _ k O')). intros n D0. destruct (Nat.eq_dec n k); [right; assumption|left; split; assumption].
           ++ cbn in Lf |- *. lia.
           ++ intros e I. right. cbn [last]. apply Sr. exact I.
           ++ intros e I. apply (Hm e). right. exact I.
           ++ cbn [last prev]. intros n D0 L. destruct (Hd n D0) as [I|I]; [lia| |exact I]. cbn in I. apply (f_equal p_seq) in I. rewrite !P_seq in I. lia.
      * unfold can_dequeue in C. apply orb_false_iff in C as (C1 & C2). apply Nat.leb_gt in C2. intros Dn.
        pose proof (Hd _ Dn (Nat.lt_succ_diag_r _)) as I. cbn in I. destruct I as [I|I].
        -- apply (f_equal p_seq) in I. rewrite !P_seq in I. unfold is_next in C1. rewrite <- I, Nat.eqb_refl in C1. destruct (k =? 1); discriminate.
        -- apply in_map_iff in I as (e & Ee & I). pose proof (Sr e I) as L1.
           assert (Ke : fst e = S (last s)) by (rewrite (g_keys s G e), Ee, P_seq; [reflexivity|rewrite E; right; exact I]).
           destruct (Hk (k, P k) (or_introl eq_refl)) as [X|X]; cbn [fst] in X; lia.
Qed.

Lemma complete D s k : on D s -> ordered s = last s -> (forall j, 1 <= j <= k -> D j /\ forall r, In r (p_reqs (P j)) -> final s r = true) ->
  k <= last (service valid cf s).
Proof.
  intros O E H. unfold service. pose proof (on_check D s O) as O1. set (s1 := check_pending s) in *.
  set (D1 := fun n => D n /\ forall r, In r (p_reqs (P n)) -> final s r = true).
  assert (X : ~ D1 (S (last (dequeue (length (prev s1)) s1)))).
  { apply dequeue_all.
    - refine (on_weaken D D1 s1 _ O1). intros n (Dn & _). exact Dn.
    - lia.
    - intros e I. change (ordered s1) with (ordered s). change (last s1) with (last s). rewrite E. lia.
    - intros e I. destruct (missing s1 (snd e)) as [|r m] eqn:M; [reflexivity|]. exfalso.
      assert (J : In r (missing s1 (snd e))) by (rewrite M; left; reflexivity). unfold missing in J. apply filter_In in J as (J & Kn).
      rewrite (o_seen D s1 O1 (snd e) r (in_map snd _ e I) J) in Kn. discriminate.
    - intros n (Dn & Fi) L. destruct (o_has D s1 O1 n Dn L) as [I|I]; [|exact I]. exfalso.
      apply in_map_iff in I as ((p & m) & Ep & I). cbn [fst] in Ep. subst p. pose proof I as I0. unfold s1, check_pending in I. cbn [pend] in I. apply filter_In in I as (I & R).
      apply in_map_iff in I as (e & Ee & I). unfold now_missing in Ee. injection Ee as Ee1 Ee2. unfold is_ready in R. cbn [snd] in R.
      destruct m as [|r m]; [discriminate|]. assert (J : In r (r :: m)) by (left; reflexivity). pose proof (o_noted' D s1 O1 _ _ r I0 J) as J1.
      rewrite <- Ee2 in J. apply filter_In in J as (_ & J). rewrite (Fi r J1) in J. discriminate. }
  destruct (le_lt_dec k (last (dequeue (length (prev s1)) s1))) as [Q|Q]; [exact Q|]. exfalso. apply X. apply H. lia.
Qed.
End Valid.

(** *** what is known *)
Lemma fin_dequeue valid cf f : forall s, seen (dequeue valid cf f s) = seen s /\ fin (dequeue valid cf f s) = fin s.
Proof.
  assert (R : forall s p, seen (receive valid cf s p) = seen s /\ fin (receive valid cf s p) = fin s).
  { intros s p. unfold receive. destruct (p_seq p <=? ordered s); [auto|]. destruct (p_seq p <=? last s); [auto|]. destruct (missing s p); [|auto].
    destruct (negb _); [auto|]. destruct (valid _ p); auto. }
  induction f as [|f IH]; intros s; cbn [dequeue]; [auto|]. destruct (prev s) as [|(k, p) r]; [auto|]. destruct (can_dequeue s k); [|auto].
  destruct (IH (receive valid cf (Rep (last s) (ordered s) (seen s) (fin s) (pend s) r (applied s) (asked s)) p)) as (A & B).
  destruct (R (Rep (last s) (ordered s) (seen s) (fin s) (pend s) r (applied s) (asked s)) p) as (A' & B'). rewrite A, B, A', B'. auto.
Qed.
Lemma fin_receive valid cf s p : seen (receive valid cf s p) = seen s /\ fin (receive valid cf s p) = fin s.
Proof.
  unfold receive. destruct (p_seq p <=? ordered s); [auto|]. destruct (p_seq p <=? last s); [auto|]. destruct (missing s p); [|auto].
  destruct (negb _); [auto|]. destruct (valid _ p); auto.
Qed.
Lemma known_run valid cf os : forall s r, nothing_forgotten os ->
  (In (See r) os \/ In r (seen s) -> In r (seen (run valid cf s os))) /\ (In (Finalise r) os \/ In r (fin s) -> In r (fin (run valid cf s os))).
Proof.
  induction os as [|o os IH]; intros s r Nf; [split; intros [[]|I]; exact I|].
  assert (Nf' : nothing_forgotten os) by (intros x C; apply (Nf x); right; exact C).
  change (run valid cf s (o :: os)) with (run valid cf (step valid cf s o) os). destruct (IH (step valid cf s o) r Nf') as (A & B).
  assert (E : (o = See r \/ In r (seen s) -> In r (seen (step valid cf s o))) /\ (o = Finalise r \/ In r (fin s) -> In r (fin (step valid cf s o)))).
  { destruct o as [p|x|x|x| |]; cbn [step].
    - destruct (fin_receive valid cf s p) as (-> & ->). split; intros [Q|Q]; try discriminate; exact Q.
    - cbn [seen fin]. split; intros [Q|Q]; try discriminate; try exact Q; [injection Q as ->; left; reflexivity|right; exact Q].
    - cbn [seen fin]. split; intros [Q|Q]; try discriminate; try exact Q; [injection Q as ->; left; reflexivity|right; exact Q].
    - exfalso. apply (Nf x). left. reflexivity.
    - destruct (ordered s <? last s); split; intros [Q|Q]; try discriminate; exact Q.
    - unfold service. destruct (fin_dequeue valid cf (length (prev (check_pending s))) (check_pending s)) as (-> & ->). split; intros [Q|Q]; try discriminate; exact Q. }
  destruct E as (E1 & E2). split.
  - intros [[Q|Q]|Q]; apply A; [right; apply E1; left; exact Q|left; exact Q|right; apply E1; right; exact Q].
  - intros [[Q|Q]|Q]; apply B; [right; apply E2; left; exact Q|left; exact Q|right; apply E2; right; exact Q].
Qed.
Lemma final_run valid cf os r : nothing_forgotten os -> In (See r) os -> In (Finalise r) os -> final (run valid cf init os) r = true.
Proof.
  intros Nf A B. destruct (known_run valid cf os init r Nf) as (X & Y). unfold final, known. apply andb_true_iff.
  split; apply existsb_exists; exists r; (split; [|apply Nat.eqb_refl]); [apply X|apply Y]; left; assumption.
Qed.
