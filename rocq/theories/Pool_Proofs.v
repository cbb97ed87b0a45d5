(** Lemmas about NODE transactions and the registry. *)
From Coq Require Import List Arith Bool Lia.
From Verif Require Import Pool_Model Pool_Spec.
Import ListNotations.

(** ** Dictionaries *)
Lemma get_set_same : forall V k (v : V) d, get k (set k v d) = Some v.
Proof. intros V k v d. induction d as [|[q w] d IH]; cbn [set get]; [rewrite Nat.eqb_refl; reflexivity|]. destruct (q =? k) eqn:E; cbn [get]; rewrite E; [reflexivity | exact IH]. Qed.
Lemma get_set_other : forall V k k' (v : V) d, k <> k' -> get k' (set k v d) = get k' d.
Proof.
  intros V k k' v d N. induction d as [|[q w] d IH]; cbn [set get].
  - destruct (Nat.eqb_spec k k'); [contradiction | reflexivity].
  - destruct (Nat.eqb_spec q k) as [->|Q]; cbn [get]; [destruct (Nat.eqb_spec k k'); [contradiction | reflexivity]|]. destruct (q =? k'); [reflexivity | exact IH].
Qed.
Lemma get_filter : forall V (f : nat -> bool) k (d : list (nat * V)), get k (filter (fun q => f (fst q)) d) = if f k then get k d else None.
Proof.
  intros V f k d. induction d as [|[q w] d IH]; cbn [filter get fst]; [destruct (f k); reflexivity|]. destruct (Nat.eqb_spec q k) as [->|N].
  - destruct (f k) eqn:F; cbn [get]; [rewrite Nat.eqb_refl; reflexivity | exact IH].
  - destruct (f q) eqn:F; cbn [get]; [|exact IH]. destruct (Nat.eqb_spec q k); [contradiction | exact IH].
Qed.
Lemma get_del_same : forall V k (d : list (nat * V)), get k (del k d) = None.
Proof. intros V k d. unfold del. rewrite (get_filter V (fun q => negb (q =? k))). rewrite Nat.eqb_refl. reflexivity. Qed.
Lemma get_del_other : forall V k k' (d : list (nat * V)), k <> k' -> get k' (del k d) = get k' d.
Proof. intros V k k' d N. unfold del. rewrite (get_filter V (fun q => negb (q =? k))). destruct (Nat.eqb_spec k' k); [congruence | reflexivity]. Qed.
Lemma get_in : forall V k (v : V) d, get k d = Some v -> In (k, v) d.
Proof. intros V k v d. induction d as [|[q w] d IH]; cbn [get]; [discriminate|]. destruct (Nat.eqb_spec q k) as [->|]; [intros E; injection E as ->; left; reflexivity | right; auto]. Qed.
Lemma get_update_same : forall st x, get (x_nym x) (update_state st x) = Some (match get (x_nym x) st with Some e => merge e (x_data x) | None => fresh (x_from x) (x_data x) end).
Proof. intros st x. apply get_set_same. Qed.
Lemma get_update_other : forall st x m, m <> x_nym x -> get m (update_state st x) = get m st.
Proof. intros st x m N. apply get_set_other. congruence. Qed.

(** ** What validation ensures *)
Lemma onat_eqb_spec : forall a b, reflect (a = b) (onat_eqb a b).
Proof. intros [a|] [b|]; cbn; try (constructor; congruence). destruct (Nat.eqb_spec a b); constructor; congruence. Qed.
Definition no_clash (st : pstate) (x : txn) : Prop := forall m e, get m st = Some e -> m <> x_nym x ->
  d_alias (x_data x) <> e_alias e /\ node_ha (d_ha (x_data x)) <> node_ha (e_ha e) /\ client_ha (d_ha (x_data x)) <> client_ha (e_ha e).
Lemma conflicting_no : forall st x u, conflicting st (x_data x) u = false -> (u = Some (x_nym x) \/ u = None) -> no_clash st x.
Proof.
  intros st x u C U m e E N. unfold conflicting in C. apply orb_false_iff in C as [_ C]. apply get_in in E.
  assert (Q : (match u with Some n => negb (fst (m, e) =? n) | None => true end) = true).
  { destruct U as [->| ->]; [cbn [fst]; destruct (Nat.eqb_spec m (x_nym x)); [contradiction | reflexivity] | reflexivity]. }
  assert (C' : forall q, In q st -> ((match u with Some n => negb (fst q =? n) | None => true end) &&
    ((d_alias (x_data x) =? e_alias (snd q)) || onat_eqb (node_ha (d_ha (x_data x))) (node_ha (e_ha (snd q))) || onat_eqb (client_ha (d_ha (x_data x))) (client_ha (e_ha (snd q))))) = false).
  { intros q J. destruct (_ && _) eqn:X; [|reflexivity]. rewrite <- C. symmetry. apply existsb_exists. exists q. auto. }
  specialize (C' (m, e) E). rewrite Q in C'. cbn [snd andb] in C'. apply orb_false_iff in C' as [C' C3]. apply orb_false_iff in C' as [C1 C2].
  split; [apply Nat.eqb_neq; exact C1|]. split; [destruct (onat_eqb_spec (node_ha (d_ha (x_data x))) (node_ha (e_ha e))) | destruct (onat_eqb_spec (client_ha (d_ha (x_data x))) (client_ha (e_ha e)))]; congruence.
Qed.
Lemma valid_spec : forall st x, valid st x = true -> no_clash st x /\ (forall a c, d_ha (x_data x) = Some (a, c) -> a <> c) /\
  match get (x_nym x) st with
  | Some e => e_alias e = d_alias (x_data x)
  | None => d_ha (x_data x) <> None /\ forall m e, get m st = Some e -> e_ident e <> x_from x
  end.
Proof.
  intros st x V. unfold valid in V.
  assert (HA : ha_ok (x_data x) = true -> forall a c, d_ha (x_data x) = Some (a, c) -> a <> c).
  { intros K a c E. unfold ha_ok in K. rewrite E in K. destruct (Nat.eqb_spec a c); [discriminate K | assumption]. }
  destruct (get (x_nym x) st) as [e|] eqn:G.
  - apply andb_true_iff in V as [V C]. apply andb_true_iff in V as [K _]. apply negb_true_iff in C. split; [exact (conflicting_no st x _ C (or_introl eq_refl))|]. split; [exact (HA K)|].
    unfold conflicting in C. rewrite G in C. apply orb_false_iff in C as [C _]. apply negb_false_iff in C. apply Nat.eqb_eq. exact C.
  - apply andb_true_iff in V as [V C]. apply andb_true_iff in V as [V S]. apply andb_true_iff in V as [K1 K]. apply negb_true_iff in C, S.
    split; [exact (conflicting_no st x _ C (or_intror eq_refl))|]. split; [exact (HA K)|]. split; [destruct (d_ha (x_data x)); [discriminate | discriminate K1]|].
    intros m e E N. apply get_in in E. unfold steward_has_node in S. assert (T : existsb (fun q => e_ident (snd q) =? x_from x) st = true) by (apply existsb_exists; exists (m, e); split; [exact E | apply Nat.eqb_eq; exact N]). congruence.
Qed.

(** the entry written by a valid transaction *)
Definition written (st : pstate) (x : txn) : entry := match get (x_nym x) st with Some e => merge e (x_data x) | None => fresh (x_from x) (x_data x) end.
Lemma written_alias : forall st x, e_alias (written st x) = d_alias (x_data x).
Proof. intros st x. unfold written. destruct (get (x_nym x) st); reflexivity. Qed.
Lemma get_update : forall st x m, get m (update_state st x) = if m =? x_nym x then Some (written st x) else get m st.
Proof. intros st x m. destruct (Nat.eqb_spec m (x_nym x)) as [->|N]; [apply get_update_same | apply get_update_other; exact N]. Qed.

Definition OK (st : pstate) : Prop := distinct st /\ addressed st.
Lemma update_OK : forall st x, OK st -> valid st x = true -> OK (update_state st x).
Proof.
  intros st x [D AD] V. destruct (valid_spec st x V) as (NC & HA & X).
  assert (CL : forall m e, get m st = Some e -> m <> x_nym x -> e_alias (written st x) <> e_alias e /\ node_ha (e_ha (written st x)) <> node_ha (e_ha e) /\ client_ha (e_ha (written st x)) <> client_ha (e_ha e)).
  { intros m e G N. destruct (NC m e G N) as (N1 & N2 & N3). split; [rewrite written_alias; exact N1|]. unfold written. destruct (get (x_nym x) st) as [e0|] eqn:G0; cbn [fresh merge e_ha]; [|auto].
    destruct (d_ha (x_data x)) as [h|]; cbn [orelse]; [auto|]. destruct (D (x_nym x) e0 m e G0 G) as (_ & D2 & D3); auto. }
  split.
  - intros m1 e1 m2 e2 G1 G2 N. rewrite get_update in G1, G2. destruct (Nat.eqb_spec m1 (x_nym x)) as [Z1|Z1], (Nat.eqb_spec m2 (x_nym x)) as [Z2|Z2]; [congruence| | |exact (D m1 e1 m2 e2 G1 G2 N)].
    + injection G1 as <-. exact (CL m2 e2 G2 Z2).
    + injection G2 as <-. destruct (CL m1 e1 G1 Z1) as (C1 & C2 & C3). auto.
  - intros m e G. rewrite get_update in G. destruct (Nat.eqb_spec m (x_nym x)) as [_|_]; [|exact (AD m e G)]. injection G as <-. unfold written.
    destruct (get (x_nym x) st) as [e0|] eqn:G0; cbn [fresh merge e_ha].
    + destruct (d_ha (x_data x)) as [[a c]|]; cbn [orelse]; [exists a, c; auto | exact (AD (x_nym x) e0 G0)].
    + destruct X as [X _]. destruct (d_ha (x_data x)) as [[a c]|]; [exists a, c; auto | congruence].
Qed.
Lemma update_owners : forall st x, owners_distinct st -> valid st x = true -> d_ident (x_data x) = None -> owners_distinct (update_state st x).
Proof.
  intros st x D V I. destruct (valid_spec st x V) as (_ & _ & X).
  assert (CL : forall m e, get m st = Some e -> m <> x_nym x -> e_ident (written st x) <> e_ident e).
  { intros m e G N. unfold written. destruct (get (x_nym x) st) as [e0|] eqn:G0; unfold fresh, merge; cbn [e_ident]; rewrite I.
    - exact (D (x_nym x) e0 m e G0 G (fun Z => N (eq_sym Z))).
    - destruct X as [_ X]. specialize (X m e G). congruence. }
  intros m1 e1 m2 e2 G1 G2 N. rewrite get_update in G1, G2. destruct (Nat.eqb_spec m1 (x_nym x)) as [Z1|Z1], (Nat.eqb_spec m2 (x_nym x)) as [Z2|Z2]; [congruence| | |exact (D m1 e1 m2 e2 G1 G2 N)].
  - injection G1 as <-. exact (CL m2 e2 G2 Z2).
  - injection G2 as <-. specialize (CL m1 e1 G1 Z1). congruence.
Qed.

(** ** Sequences of valid transactions *)
Definition final (ts : list txn) (st : pstate) : pstate := fold_left update_state ts st.
Fixpoint allv (st : pstate) (ts : list txn) : Prop := match ts with [] => True | x :: r => valid st x = true /\ allv (update_state st x) r end.
Lemma final_app : forall a b st, final (a ++ b) st = final b (final a st).
Proof. intros a b st. apply fold_left_app. Qed.
Lemma allv_app : forall a b st, allv st (a ++ b) <-> allv st a /\ allv (final a st) b.
Proof.
  induction a as [|x a IH]; intros b st; cbn [app allv]; [split; [auto | intros [_ B]; exact B]|]. rewrite IH. split; [intros (A & B & C); auto | intros ((A & B) & C); auto].
Qed.
Lemma allv_OK : forall ts st, allv st ts -> OK st -> OK (final ts st).
Proof. induction ts as [|x ts IH]; intros st A O; [exact O|]. destruct A as [V A]. exact (IH _ A (update_OK st x O V)). Qed.
Lemma allv_owners : forall ts st, allv st ts -> (forall x, In x ts -> d_ident (x_data x) = None) -> owners_distinct st -> owners_distinct (final ts st).
Proof.
  induction ts as [|x ts IH]; intros st A P O; [exact O|]. destruct A as [V A]. apply (IH _ A); [intros y J; apply P; right; exact J|]. exact (update_owners st x O V (P x (or_introl eq_refl))).
Qed.
Lemma allv_alias : forall ts st m e, allv st ts -> get m st = Some e -> exists e', get m (final ts st) = Some e' /\ e_alias e' = e_alias e /\
  ((forall x, In x ts -> d_ident (x_data x) = None) -> e_ident e' = e_ident e).
Proof.
  induction ts as [|x ts IH]; intros st m e A G; [exists e; auto|]. destruct A as [V A]. destruct (valid_spec st x V) as (_ & _ & X).
  assert (GU : get m (update_state st x) = Some (if m =? x_nym x then written st x else e)) by (rewrite get_update; destruct (m =? x_nym x); [reflexivity | exact G]).
  destruct (IH _ m _ A GU) as (e' & E1 & E2 & E3). exists e'. split; [exact E1|].
  destruct (Nat.eqb_spec m (x_nym x)) as [Z|]; [|split; [exact E2 | intros P; apply E3; intros y J; apply P; right; exact J]].
  rewrite <- Z in X. rewrite G in X. split; [rewrite E2, written_alias; congruence|]. intros P. rewrite E3 by (intros y J; apply P; right; exact J).
  unfold written. rewrite <- Z, G. unfold merge. cbn [e_ident]. rewrite (P x (or_introl eq_refl)). reflexivity.
Qed.
Lemma apply_batch_spec : forall rs st ts st', apply_batch st rs = (ts, st') -> allv st ts /\ st' = final ts st /\ incl ts rs.
Proof.
  induction rs as [|x rs IH]; intros st ts st' E; cbn [apply_batch] in E.
  - injection E as <- <-. split; [exact Logic.I|]. split; [reflexivity | intros y []].
  - destruct (valid st x) eqn:V.
    + destruct (apply_batch (update_state st x) rs) as [ts0 st0] eqn:E0. injection E as <- <-. destruct (IH _ _ _ E0) as (A & F & IN).
      split; [split; assumption|]. split; [exact F|]. intros y [<-|J]; [left; reflexivity | right; apply IN; exact J].
    + destruct (IH _ _ _ E) as (A & F & IN). split; [exact A|]. split; [exact F|]. intros y J. right. apply IN. exact J.
Qed.

(** ** The node *)
Fixpoint uchain (Q : txn -> Prop) (st : pstate) (u : list (list txn * pstate)) : Prop :=
  match u with [] => True | (ts, s) :: r => allv st ts /\ s = final ts st /\ (forall x, In x ts -> Q x) /\ uchain Q s r end.
Definition NI (Q : txn -> Prop) (n : node) : Prop :=
  n_state n = final (n_ledger n) [] /\ allv [] (n_ledger n) /\ (forall x, In x (n_ledger n) -> Q x) /\ uchain Q (n_state n) (n_unc n).
Definition reqs_of (e : event) : list txn := match e with EBatch rs | ECaught rs => rs | _ => [] end.
Lemma head_cons : forall c q u g l, head (mkN l c (q :: u) g) = head (mkN l (snd q) u g).
Proof.
  intros c q u g l. unfold head. cbn [n_unc n_state rev]. destruct (rev u) as [|z r]; [reflexivity|]. reflexivity.
Qed.
Lemma uchain_snoc : forall Q l g u st ts, uchain Q st u -> allv (head (mkN l st u g)) ts -> (forall x, In x ts -> Q x) -> uchain Q st (u ++ [(ts, final ts (head (mkN l st u g)))]).
Proof.
  intros Q l g. induction u as [|[t s] u IH]; intros st ts U A P; cbn [app uchain].
  - cbn in *. auto.
  - destruct U as (A1 & E1 & P1 & U). rewrite head_cons in *. cbn [snd] in *. split; [exact A1|]. split; [exact E1|]. split; [exact P1|]. apply IH; assumption.
Qed.
Lemma uchain_removelast : forall Q u st, uchain Q st u -> uchain Q st (removelast u).
Proof.
  intros Q. induction u as [|[t s] u IH]; intros st U; [exact U|]. destruct u as [|q u]; [exact Logic.I|]. change (removelast ((t, s) :: q :: u)) with ((t, s) :: removelast (q :: u)).
  destruct U as (A1 & E1 & P1 & U). cbn [uchain]. auto.
Qed.
Lemma caught_fold : forall self ts n, n_unc n = [] -> let n' := fold_left (caught self) ts n in
  n_ledger n' = n_ledger n ++ ts /\ n_state n' = final ts (n_state n) /\ n_unc n' = [].
Proof.
  intros self. induction ts as [|x ts IH]; intros n U; cbn [fold_left]; [rewrite app_nil_r; auto|]. destruct (IH (caught self n x) eq_refl) as (E1 & E2 & E3).
  cbn [caught n_ledger n_state] in E1, E2. rewrite <- app_assoc in E1. auto.
Qed.
Lemma NI_step : forall Q self n e, NI Q n -> (forall x, In x (reqs_of e) -> Q x) -> NI Q (step self n e).
Proof.
  intros Q self n e (S & A & L & U) P. destruct e as [rs| | |rs|]; cbn [step reqs_of] in *.
  - destruct (apply_batch (head n) rs) as [ts st'] eqn:E. destruct (apply_batch_spec _ _ _ _ E) as (A1 & E1 & IN). split; [exact S|]. split; [exact A|]. split; [exact L|].
    cbn [n_state n_unc]. subst st'. destruct n as [l c u g]. apply (uchain_snoc Q l g u c ts U A1). intros x J. apply P. apply IN. exact J.
  - destruct (n_unc n) as [|[ts st] r] eqn:EU; [split; [exact S|]; split; [exact A|]; split; [exact L|]; rewrite EU; exact Logic.I|].
    destruct U as (A1 & E1 & P1 & U). split; [|split; [|split]]; cbn [n_state n_ledger n_unc].
    + rewrite E1, S, final_app. reflexivity.
    + apply allv_app. split; [exact A|]. rewrite <- S. exact A1.
    + intros x J. apply in_app_or in J as [J|J]; auto.
    + exact U.
  - split; [exact S|]. split; [exact A|]. split; [exact L|]. apply uchain_removelast. exact U.
  - destruct (apply_batch (n_state n) rs) as [ts st'] eqn:E. destruct (apply_batch_spec _ _ _ _ E) as (A1 & E1 & IN). cbn [fst].
    destruct (caught_fold self ts (mkN (n_ledger n) (n_state n) [] (n_reg n)) eq_refl) as (F1 & F2 & F3). cbn [n_ledger n_state] in F1, F2.
    split; [|split; [|split]].
    + rewrite F1, F2, S, final_app. reflexivity.
    + rewrite F1. apply allv_app. split; [exact A|]. rewrite <- S. exact A1.
    + rewrite F1. intros x J. apply in_app_or in J as [J|J]; [auto | apply P; apply IN; exact J].
    + rewrite F3. exact Logic.I.
  - split; [exact S|]. split; [exact A|]. split; [exact L|]. exact Logic.I.
Qed.
Lemma NI_run : forall Q self es n, NI Q n -> (forall e x, In e es -> In x (reqs_of e) -> Q x) -> NI Q (run self n es).
Proof.
  intros Q self. induction es as [|e es IH]; intros n I P; [exact I|]. apply IH; [|intros e' x J K; apply (P e' x); [right; exact J | exact K]].
  apply NI_step; [exact I|]. intros x J. apply (P e x); [left; reflexivity | exact J].
Qed.
Lemma uchain_states : forall Q u st s, uchain Q st u -> In s (map snd u) -> exists ts, allv st ts /\ s = final ts st /\ forall x, In x ts -> Q x.
Proof.
  intros Q. induction u as [|[t c] u IH]; intros st s U J; [destruct J|]. destruct U as (A1 & E1 & P1 & U). destruct J as [<-|J]; [exists t; cbn [snd]; auto|].
  destruct (IH c s U J) as (ts & A2 & E2 & P2). exists (t ++ ts). split; [apply allv_app; split; [exact A1 | rewrite <- E1; exact A2]|]. split; [rewrite final_app, <- E1; exact E2|].
  intros x K. apply in_app_or in K as [K|K]; auto.
Qed.
Lemma NI_states : forall Q n s, NI Q n -> In s (states n) -> exists ts, allv [] ts /\ s = final ts [] /\ (forall x, In x ts -> Q x) /\ exists r, ts = n_ledger n ++ r.
Proof.
  intros Q n s (S & A & L & U) [<-|J]; [exists (n_ledger n); split; [exact A|]; split; [exact S|]; split; [exact L|]; exists []; symmetry; apply app_nil_r|].
  destruct (uchain_states Q _ _ s U J) as (ts & A2 & E2 & P2). exists (n_ledger n ++ ts). split; [apply allv_app; split; [exact A | rewrite <- S; exact A2]|].
  split; [rewrite final_app, <- S; exact E2|]. split; [intros x K; apply in_app_or in K as [K|K]; auto | exists ts; reflexivity].
Qed.
Lemma ledger_grows : forall self es n, exists r, n_ledger (run self n es) = n_ledger n ++ r.
Proof.
  intros self. induction es as [|e es IH]; intros n; [exists []; symmetry; apply app_nil_r|]. destruct (IH (step self n e)) as [r E]. change (run self n (e :: es)) with (run self (step self n e) es). rewrite E.
  assert (S : exists r0, n_ledger (step self n e) = n_ledger n ++ r0).
  { destruct e as [rs| | |rs|]; cbn [step]; try (exists []; symmetry; apply app_nil_r).
    - destruct (n_unc n) as [|[ts st] u]; [exists []; symmetry; apply app_nil_r | exists ts; reflexivity].
    - exists (fst (apply_batch (n_state n) rs)). exact (proj1 (caught_fold self _ (mkN (n_ledger n) (n_state n) [] (n_reg n)) eq_refl)). }
  destruct S as [r0 ->]. exists (r0 ++ r). rewrite app_assoc. reflexivity.
Qed.

(** ** The genesis transactions are valid in turn *)
Definition from_txns (g : list txn) (st : pstate) : Prop := forall k e, In (k, e) st -> exists x, In x g /\ x_nym x = k /\ e = fresh (x_from x) (x_data x).
Lemma get_none_in : forall V k (d : list (nat * V)), (forall v, ~ In (k, v) d) -> get k d = None.
Proof. intros V k d. induction d as [|[q w] d IH]; intros N; cbn [get]; [reflexivity|]. destruct (Nat.eqb_spec q k) as [->|]; [destruct (N w); left; reflexivity | apply IH; intros v J; apply (N v); right; exact J]. Qed.
Lemma set_new : forall V k (v : V) d, get k d = None -> set k v d = d ++ [(k, v)].
Proof. intros V k v d. induction d as [|[q w] d IH]; cbn [get set app]; [reflexivity|]. destruct (q =? k); [discriminate | intros E; rewrite (IH E); reflexivity]. Qed.
Lemma genesis_allv : forall g2 g1 st, genesis_ok (g1 ++ g2) -> from_txns g1 st -> allv st g2.
Proof.
  induction g2 as [|x g2 IH]; intros g1 st GO F; [exact Logic.I|].
  assert (SEP : forall (B : Type) (f : txn -> B), NoDup (map f (g1 ++ x :: g2)) -> forall y, In y g1 -> f y <> f x).
  { intros B f ND y J E. rewrite map_app in ND. cbn [map] in ND. apply NoDup_remove_2 in ND. apply ND. apply in_or_app. left. rewrite <- E. apply in_map. exact J. }
  destruct GO as (N1 & N2 & N3 & N4 & N5 & K). destruct (K x) as (ID & a & c & HA & NE); [apply in_or_app; right; left; reflexivity|].
  assert (GN : get (x_nym x) st = None).
  { apply get_none_in. intros e J. destruct (F _ _ J) as (y & JY & EY & _). exact (SEP _ _ N1 y JY EY). }
  assert (V : valid st x = true).
  { unfold valid. rewrite GN, HA. unfold ha_ok. rewrite HA. destruct (Nat.eqb_spec a c); [contradiction|]. cbn [negb andb].
    assert (S : steward_has_node st (x_from x) = false).
    { destruct (steward_has_node st (x_from x)) eqn:S; [|reflexivity]. unfold steward_has_node in S. apply existsb_exists in S as ([k e] & J & S). destruct (F _ _ J) as (y & JY & _ & ->).
      destruct (K y) as (IDY & _); [apply in_or_app; left; exact JY|]. unfold fresh in S. cbn [snd e_ident] in S. rewrite IDY in S. apply Nat.eqb_eq in S. destruct (SEP _ _ N2 y JY S). }
    rewrite S. cbn [negb andb]. unfold conflicting. cbn [orb]. destruct (existsb _ st) eqn:C; [|reflexivity]. exfalso. apply existsb_exists in C as ([k e] & J & C). destruct (F _ _ J) as (y & JY & _ & ->).
    cbn [snd fst andb fresh e_alias e_ha] in C. apply orb_true_iff in C as [C|C]; [apply orb_true_iff in C as [C|C]|].
    - apply Nat.eqb_eq in C. exact (SEP _ _ N3 y JY (eq_sym C)).
    - destruct (onat_eqb_spec (node_ha (d_ha (x_data x))) (node_ha (d_ha (x_data y)))) as [E|]; [|discriminate C]. exact (SEP _ _ N4 y JY (eq_sym E)).
    - destruct (onat_eqb_spec (client_ha (d_ha (x_data x))) (client_ha (d_ha (x_data y)))) as [E|]; [|discriminate C]. exact (SEP _ _ N5 y JY (eq_sym E)). }
  split; [exact V|]. apply (IH (g1 ++ [x])); [rewrite <- app_assoc; exact (conj N1 (conj N2 (conj N3 (conj N4 (conj N5 K)))))|].
  unfold update_state. rewrite GN, set_new by exact GN. intros k e J. apply in_app_or in J as [J|[J|[]]].
  - destruct (F k e J) as (y & JY & E). exists y. split; [apply in_or_app; left; exact JY | exact E].
  - injection J as <- <-. exists x. split; [apply in_or_app; right; left; reflexivity | auto].
Qed.
Lemma genesis_NI : forall g, genesis_ok g -> NI (fun _ => True) (init g).
Proof. intros g GO. split; [reflexivity|]. split; [apply (genesis_allv g [] [] GO); intros k e []|]. split; [auto | exact Logic.I]. Qed.
Lemma genesis_NI_plain : forall g, genesis_ok g -> NI (fun x => d_ident (x_data x) = None) (init g).
Proof.
  intros g GO. split; [reflexivity|]. split; [apply (genesis_allv g [] [] GO); intros k e []|]. split; [|exact Logic.I].
  intros x J. destruct GO as (_ & _ & _ & _ & _ & K). exact (proj1 (K x J)).
Qed.
Lemma OK_nil : OK [].
Proof. split; [intros m1 e1 m2 e2 E; discriminate E | intros m e E; discriminate E]. Qed.

(** ** The registry *)
Definition has_ha (F : pstate) (m : nat) (h : nat * nat) : Prop := exists e, get m F = Some e /\ e_ha e = Some h.
Definition R (st F : pstate) (g : registry) : Prop :=
  (forall m, get m (g_ids g) = option_map e_alias (get m st)) /\
  (forall m, get m (g_serv g) = match get m st with Some e => e_serv e | None => None end) /\
  (forall m e, get m st = Some e -> e_serv e = Some true -> exists h, get (e_alias e) (g_reg g) = Some h /\ (e_ha e = Some h \/ has_ha F m h)) /\
  (forall a, get a (g_reg g) <> None -> exists m e, get m st = Some e /\ e_alias e = a /\ e_serv e = Some true).
Definition SV (st : pstate) : Prop := OK st /\ forall m e, get m st = Some e -> e_serv e <> None.
(** a transaction adding a node says whether it is a validator *)
Definition says (st : pstate) (x : txn) : Prop := get (x_nym x) st = None -> d_serv (x_data x) <> None.
Lemma update_SV : forall st x, SV st -> valid st x = true -> says st x -> SV (update_state st x).
Proof.
  intros st x [O S] V SY. split; [exact (update_OK st x O V)|]. intros m e G. rewrite get_update in G. destruct (Nat.eqb_spec m (x_nym x)) as [_|_]; [|exact (S m e G)]. injection G as <-.
  unfold written. destruct (get (x_nym x) st) as [e0|] eqn:G0; cbn [merge fresh e_serv]; [|exact (SY G0)]. destruct (d_serv (x_data x)); cbn [orelse]; [discriminate | exact (S _ _ G0)].
Qed.

Lemma assemble : forall st F g x reg', SV st -> valid st x = true -> R st F g ->
  (forall a, a <> d_alias (x_data x) -> get a reg' = get a (g_reg g)) ->
  (match e_serv (written st x) with
   | Some true => exists h, get (d_alias (x_data x)) reg' = Some h /\ (e_ha (written st x) = Some h \/ has_ha F (x_nym x) h)
   | _ => get (d_alias (x_data x)) reg' = None
   end) ->
  (forall m e, get m (update_state st x) = Some e -> e_serv e = Some true -> exists h, get (e_alias e) reg' = Some h /\ (e_ha e = Some h \/ has_ha F m h)) /\
  (forall a, get a reg' <> None -> exists m e, get m (update_state st x) = Some e /\ e_alias e = a /\ e_serv e = Some true).
Proof.
  intros st F g x reg' _ V (R1 & R2 & R3 & R4) O W. destruct (valid_spec st x V) as (NC & _ & X). split.
  - intros m e G S. rewrite get_update in G. destruct (Nat.eqb_spec m (x_nym x)) as [Z|N].
    + injection G as <-. rewrite S in W. rewrite written_alias, Z. exact W.
    + destruct (NC m e G N) as (N1 & _). rewrite O by congruence. exact (R3 m e G S).
  - intros a A. destruct (Nat.eq_dec a (d_alias (x_data x))) as [->|N].
    + destruct (e_serv (written st x)) as [[|]|] eqn:S; [|contradiction|contradiction]. exists (x_nym x), (written st x). rewrite get_update, Nat.eqb_refl. split; [reflexivity|]. split; [apply written_alias | exact S].
    + rewrite O in A by exact N. destruct (R4 a A) as (m & e & G & EA & S). exists m, e. rewrite get_update. destruct (Nat.eqb_spec m (x_nym x)) as [Z|_]; [|auto].
      exfalso. rewrite <- Z, G in X. congruence.
Qed.
Lemma on_change_R : forall self S st F g x, SV st -> valid st x = true -> says st x -> R st F g ->
  (forall e, get (x_nym x) st = Some e -> exists eS h, get (x_nym x) S = Some eS /\ e_ha eS = Some h /\ (d_ha (x_data x) = None -> e_ha e = Some h \/ has_ha F (x_nym x) h)) ->
  exists g', on_change self S g x = Some g' /\ R (update_state st x) F g' /\ set_ids (g_ids g) (x_nym x) (d_alias (x_data x)) = Some (g_ids g').
Proof.
  intros self S st F g x SVS V SY RR HS. pose proof RR as (R1 & R2 & R3 & R4). destruct (valid_spec st x V) as (NC & HA & X).
  unfold on_change.
  assert (OTH : forall m e, get m st = Some e -> m <> x_nym x -> e_alias e <> d_alias (x_data x)) by (intros m e G N; destruct (NC m e G N) as (N1 & _); congruence).
  assert (IDS : exists ids', set_ids (g_ids g) (x_nym x) (d_alias (x_data x)) = Some ids' /\ forall m, get m ids' = option_map e_alias (get m (update_state st x))).
  { unfold set_ids. rewrite R1. destruct (get (x_nym x) st) as [e|] eqn:G; cbn [option_map].
    - rewrite X, Nat.eqb_refl. exists (g_ids g). split; [reflexivity|]. intros m. rewrite get_update. destruct (Nat.eqb_spec m (x_nym x)) as [->|]; [|apply R1]. rewrite R1, G. cbn [option_map]. rewrite written_alias. congruence.
    - eexists. split; [reflexivity|]. intros m. rewrite get_update. destruct (Nat.eqb_spec m (x_nym x)) as [->|N]; [rewrite get_set_same; cbn [option_map]; rewrite written_alias; reflexivity|].
      rewrite get_set_other by congruence. apply R1. }
  destruct IDS as (ids' & EI & I1). rewrite EI. rewrite R2. destruct (get (x_nym x) st) as [e|] eqn:G.
  - (* a known node *)
    assert (WE : written st x = merge e (x_data x)) by (unfold written; rewrite G; reflexivity).
    destruct (e_serv e) as [old|] eqn:SE; [|destruct (proj2 SVS _ _ G SE)].
    assert (RA : if old then exists h, get (d_alias (x_data x)) (g_reg g) = Some h /\ (e_ha e = Some h \/ has_ha F (x_nym x) h) else get (d_alias (x_data x)) (g_reg g) = None).
    { destruct old; [rewrite <- X; exact (R3 _ _ G SE)|]. destruct (get (d_alias (x_data x)) (g_reg g)) eqn:GA; [|reflexivity]. exfalso.
      destruct (R4 (d_alias (x_data x))) as (m & e' & G' & EA & S'); [congruence|]. destruct (Nat.eq_dec m (x_nym x)) as [->|N]; [congruence | exact (OTH m e' G' N EA)]. }
    assert (SC : exists reg1, services_changed self S (g_reg g) old x (d_alias (x_data x)) = Some reg1 /\
      (forall a, a <> d_alias (x_data x) -> get a reg1 = get a (g_reg g)) /\
      match e_serv (written st x) with Some true => exists h, get (d_alias (x_data x)) reg1 = Some h /\ (d_ha (x_data x) = None -> e_ha e = Some h \/ has_ha F (x_nym x) h) | _ => get (d_alias (x_data x)) reg1 = None end).
    { rewrite WE. unfold services_changed. cbn [merge e_serv]. rewrite SE. destruct (d_serv (x_data x)) as [new|] eqn:DS; cbn [orelse].
      - destruct (Bool.eqb_spec old new) as [->|NE].
        + exists (g_reg g). split; [reflexivity|]. split; [auto|]. destruct new; [destruct RA as (h & E & RA); exists h; auto | exact RA].
        + destruct new.
          * destruct (HS e eq_refl) as (eS & h & GS & ES & K). rewrite GS, ES. eexists. split; [reflexivity|]. split; [intros a N; apply get_set_other; congruence|].
            rewrite get_set_same. eexists. split; [reflexivity|]. intros DN. rewrite DN. destruct (_ =? self); exact (K DN).
          * destruct old; [|congruence]. destruct RA as (h & E & _). rewrite E. eexists. split; [reflexivity|]. split; [intros a N; apply get_del_other; congruence | apply get_del_same].
      - exists (g_reg g). split; [reflexivity|]. split; [auto|]. destruct old; [destruct RA as (h & E & RA); exists h; auto | exact RA]. }
    destruct SC as (reg1 & E1 & O1 & W1). rewrite E1.
    set (reg2 := match get (d_alias (x_data x)) reg1 with Some _ => match d_ha (x_data x) with Some h => set (d_alias (x_data x)) h reg1 | None => reg1 end | None => reg1 end).
    assert (O2 : forall a, a <> d_alias (x_data x) -> get a reg2 = get a (g_reg g)).
    { intros a N. unfold reg2. destruct (get (d_alias (x_data x)) reg1); [|exact (O1 a N)]. destruct (d_ha (x_data x)); [rewrite get_set_other by congruence|]; exact (O1 a N). }
    assert (W2 : match e_serv (written st x) with Some true => exists h, get (d_alias (x_data x)) reg2 = Some h /\ (e_ha (written st x) = Some h \/ has_ha F (x_nym x) h) | _ => get (d_alias (x_data x)) reg2 = None end).
    { unfold reg2. destruct (e_serv (written st x)) as [[|]|]; [|rewrite W1; exact W1|rewrite W1; exact W1]. destruct W1 as (h & E & K). rewrite E. rewrite WE. cbn [merge e_ha].
      destruct (d_ha (x_data x)) as [h'|]; cbn [orelse]; [exists h'; rewrite get_set_same; auto | exists h; auto]. }
    destruct (assemble st F g x reg2 SVS V RR O2 W2) as [Q3 Q4].
    eexists. split; [reflexivity|]. cbn [g_ids]. split; [|reflexivity]. split; [exact I1|]. split; [|split; [exact Q3 | exact Q4]].
    cbn [g_serv]. intros m. rewrite get_update. destruct (d_serv (x_data x)) as [b|] eqn:DS.
    + destruct (Nat.eqb_spec m (x_nym x)) as [->|N]; [rewrite get_set_same, WE; cbn [merge e_serv]; rewrite DS; reflexivity | rewrite get_set_other by congruence; apply R2].
    + destruct (Nat.eqb_spec m (x_nym x)) as [->|N]; [rewrite R2, G, WE; cbn [merge e_serv]; rewrite DS; reflexivity | apply R2].
  - (* a new node *)
    assert (WE : written st x = fresh (x_from x) (x_data x)) by (unfold written; rewrite G; reflexivity). destruct X as [X _].
    assert (RA : get (d_alias (x_data x)) (g_reg g) = None).
    { destruct (get (d_alias (x_data x)) (g_reg g)) eqn:GA; [|reflexivity]. exfalso. destruct (R4 (d_alias (x_data x))) as (m & e' & G' & EA & S'); [congruence|].
      apply (OTH m e' G'); [intros ->; congruence | exact EA]. }
    destruct (d_ha (x_data x)) as [h|] eqn:DH; [|congruence]. specialize (SY G). destruct (d_serv (x_data x)) as [b|] eqn:DS; [|congruence].
    set (reg2 := if b then set (d_alias (x_data x)) h (g_reg g) else g_reg g).
    assert (O2 : forall a, a <> d_alias (x_data x) -> get a reg2 = get a (g_reg g)) by (intros a N; unfold reg2; destruct b; [apply get_set_other; congruence | reflexivity]).
    assert (W2 : match e_serv (written st x) with Some true => exists h, get (d_alias (x_data x)) reg2 = Some h /\ (e_ha (written st x) = Some h \/ has_ha F (x_nym x) h) | _ => get (d_alias (x_data x)) reg2 = None end).
    { rewrite WE. cbn [fresh e_serv e_ha]. rewrite DS, DH. unfold reg2. destruct b; [exists h; rewrite get_set_same; auto | exact RA]. }
    destruct (assemble st F g x reg2 SVS V RR O2 W2) as [Q3 Q4].
    exists (mkG ids' (set (x_nym x) b (g_serv g)) reg2). split; [destruct b; reflexivity|]. split; [|reflexivity]. split; [exact I1|]. split; [|split; [exact Q3 | exact Q4]].
    cbn [g_serv]. intros m. rewrite get_update. destruct (Nat.eqb_spec m (x_nym x)) as [->|N]; [rewrite get_set_same, WE; cbn [fresh e_serv]; rewrite DS; reflexivity | rewrite get_set_other by congruence; apply R2].
Qed.

(** ** The registry read from a ledger *)
Fixpoint allsay (st : pstate) (ts : list txn) : Prop := match ts with [] => True | x :: r => says st x /\ allsay (update_state st x) r end.
Lemma allsay_app : forall a b st, allsay st (a ++ b) <-> allsay st a /\ allsay (final a st) b.
Proof.
  induction a as [|x a IH]; intros b st; cbn [app allsay]; [split; [auto | intros [_ B]; exact B]|]. rewrite IH. split; [intros (A & B & C); auto | intros ((A & B) & C); auto].
Qed.
Lemma allv_SV : forall ts st, allv st ts -> allsay st ts -> SV st -> SV (final ts st).
Proof. induction ts as [|x ts IH]; intros st A B O; [exact O|]. destruct A as [V A], B as [SY B]. exact (IH _ A B (update_SV st x O V SY)). Qed.
Lemma SV_nil : SV [].
Proof. split; [exact OK_nil | intros m e E; discriminate E]. Qed.
Lemma final_none : forall L m, get m (final L []) = None <-> forall y, In y L -> x_nym y <> m.
Proof.
  intros L m. assert (G : forall L st, get m (final L st) = None <-> get m st = None /\ forall y, In y L -> x_nym y <> m).
  { clear L. induction L as [|x L IH]; intros st; cbn [final fold_left]; [split; [intros E; split; [exact E | intros y []] | intros [E _]; exact E]|].
    rewrite (IH (update_state st x)), get_update. split.
    - intros [E K]. destruct (Nat.eqb_spec m (x_nym x)) as [|N]; [discriminate E|]. split; [exact E|]. intros y [<-|J]; [congruence | exact (K y J)].
    - intros [E K]. destruct (Nat.eqb_spec m (x_nym x)) as [Z|N]; [destruct (K x (or_introl eq_refl)); congruence|]. split; [exact E | intros y J; apply K; right; exact J]. }
  rewrite G. split; [intros [_ K]; exact K | intros K; split; [reflexivity | exact K]].
Qed.
Lemma announced_allsay : forall L, announced L -> allsay [] L.
Proof.
  intros L AN. assert (G : forall l1 l2, L = l1 ++ l2 -> allsay (final l1 []) l2).
  { intros l1 l2. revert l1. induction l2 as [|x l2 IH]; intros l1 E; [exact Logic.I|]. split.
    - intros N. apply (AN l1 x l2 E). apply final_none. exact N.
    - specialize (IH (l1 ++ [x])). rewrite final_app in IH. apply IH. rewrite <- app_assoc. exact E. }
  exact (G [] L eq_refl).
Qed.

Definition LR (st : pstate) (all : list (nat * (nat * nat))) (act : list nat) : Prop :=
  (forall m e, get m st = Some e -> get (e_alias e) all = e_ha e /\ (In (e_alias e) act <-> e_serv e = Some true)) /\
  (forall a, get a all <> None \/ In a act -> exists m e, get m st = Some e /\ e_alias e = a).
Lemma LR_step : forall st all act x, valid st x = true -> LR st all act -> LR (update_state st x) (fst (parse_one (all, act) x)) (snd (parse_one (all, act) x)).
Proof.
  intros st all act x V [L1 L2]. destruct (valid_spec st x V) as (NC & _ & X). unfold parse_one. cbn [fst snd]. set (a := d_alias (x_data x)) in *.
  assert (OTH : forall m e, get m st = Some e -> m <> x_nym x -> e_alias e <> a) by (intros m e G N; destruct (NC m e G N) as (N1 & _); unfold a; congruence).
  assert (BEF : match get (x_nym x) st with Some e => get a all = e_ha e /\ (In a act <-> e_serv e = Some true) | None => get a all = None /\ ~ In a act end).
  { destruct (get (x_nym x) st) as [e|] eqn:G; [rewrite <- X; exact (L1 _ _ G)|].
    assert (K : get a all <> None \/ In a act -> False) by (intros K; destruct (L2 a K) as (m & e & G' & EA); apply (OTH m e G'); [intros ->; congruence | exact EA]).
    split; [destruct (get a all); [destruct K; left; discriminate | reflexivity] | intros J; apply K; right; exact J]. }
  split.
  - intros m e G. rewrite get_update in G. destruct (Nat.eqb_spec m (x_nym x)) as [_|N].
    + injection G as <-. rewrite written_alias. fold a. unfold written. destruct (get (x_nym x) st) as [e0|]; destruct BEF as [B1 B2]; cbn [merge fresh e_ha e_serv].
      * split; [destruct (d_ha (x_data x)); cbn [orelse]; [apply get_set_same | exact B1]|].
        destruct (d_serv (x_data x)) as [[|]|]; cbn [orelse]; [split; [reflexivity | left; reflexivity] | split; [intros J; destruct (remove_In Nat.eq_dec act a J) | discriminate] | exact B2].
      * split; [destruct (d_ha (x_data x)); [apply get_set_same | exact B1]|].
        destruct (d_serv (x_data x)) as [[|]|]; [split; [reflexivity | left; reflexivity] | split; [intros J; destruct (remove_In Nat.eq_dec act a J) | discriminate] | split; [intros J; contradiction | discriminate]].
    + specialize (OTH m e G N). destruct (L1 m e G) as [A1 A2]. split; [destruct (d_ha (x_data x)); [rewrite get_set_other by congruence|]; exact A1|]. rewrite <- A2.
      destruct (d_serv (x_data x)) as [[|]|]; [|split; intros J|reflexivity].
      * cbn [In]. split; [intros [J|J]; [congruence | exact J] | right; assumption].
      * apply in_remove in J. exact (proj1 J).
      * apply in_in_remove; [congruence | exact J].
  - intros b K. destruct (Nat.eq_dec b a) as [->|N].
    + exists (x_nym x), (written st x). rewrite get_update, Nat.eqb_refl. split; [reflexivity | apply written_alias].
    + destruct (L2 b) as (m & e & G & EA).
      { destruct K as [K|K]; [left|right].
        - destruct (d_ha (x_data x)); [rewrite get_set_other in K by congruence|]; exact K.
        - destruct (d_serv (x_data x)) as [[|]|]; [destruct K as [K|K]; [congruence | exact K] | apply in_remove in K; exact (proj1 K) | exact K]. }
      exists m, e. rewrite get_update. destruct (Nat.eqb_spec m (x_nym x)) as [Z|_]; [|auto]. exfalso. rewrite <- Z, G in X. congruence.
Qed.
Lemma parse_LR : forall L st acc, allv st L -> LR st (fst acc) (snd acc) -> let acc' := fold_left parse_one L acc in LR (final L st) (fst acc') (snd acc').
Proof.
  induction L as [|x L IH]; intros st [all act] A I; [exact I|]. destruct A as [V A]. cbn [fold_left final]. apply (IH _ _ A). exact (LR_step st all act x V I).
Qed.
Lemma load_ids_R : forall L ids, forall st, allv st L -> (forall m, get m ids = option_map e_alias (get m st)) ->
  exists ids', fold_left (fun o x => match o with Some ids => set_ids ids (x_nym x) (d_alias (x_data x)) | None => None end) L (Some ids) = Some ids' /\ forall m, get m ids' = option_map e_alias (get m (final L st)).
Proof.
  induction L as [|x L IH]; intros ids st A I; [exists ids; auto|]. destruct A as [V A]. cbn [fold_left final]. destruct (valid_spec st x V) as (_ & _ & X).
  assert (IDS : exists ids', set_ids ids (x_nym x) (d_alias (x_data x)) = Some ids' /\ forall m, get m ids' = option_map e_alias (get m (update_state st x))).
  { unfold set_ids. rewrite I. destruct (get (x_nym x) st) as [e|] eqn:G; cbn [option_map].
    - rewrite X, Nat.eqb_refl. exists ids. split; [reflexivity|]. intros m. rewrite get_update. destruct (Nat.eqb_spec m (x_nym x)) as [->|]; [|apply I]. rewrite I, G. cbn [option_map]. rewrite written_alias. congruence.
    - eexists. split; [reflexivity|]. intros m. rewrite get_update. destruct (Nat.eqb_spec m (x_nym x)) as [->|N]; [rewrite get_set_same; cbn [option_map]; rewrite written_alias; reflexivity|].
      rewrite get_set_other by congruence. apply I. }
  destruct IDS as (ids' & E & I'). rewrite E. exact (IH ids' _ A I').
Qed.
Lemma load_serv_R : forall L s st, (forall m, get m s = match get m st with Some e => e_serv e | None => None end) ->
  forall m, get m (fold_left (fun s x => match d_serv (x_data x) with Some b => set (x_nym x) b s | None => s end) L s) = match get m (final L st) with Some e => e_serv e | None => None end.
Proof.
  induction L as [|x L IH]; intros s st I; [exact I|]. cbn [fold_left final]. apply (IH _ (update_state st x)). intros m. rewrite get_update.
  destruct (Nat.eqb_spec m (x_nym x)) as [->|N].
  - unfold written. specialize (I (x_nym x)). destruct (d_serv (x_data x)) as [b|] eqn:D.
    + rewrite get_set_same. destruct (get (x_nym x) st); cbn [merge fresh e_serv]; rewrite D; reflexivity.
    + rewrite I. destruct (get (x_nym x) st); cbn [merge fresh e_serv]; rewrite D; reflexivity.
  - destruct (d_serv (x_data x)); [rewrite get_set_other by congruence|]; apply I.
Qed.
Lemma load_R : forall L, allv [] L -> addressed (final L []) -> exists g, load L = Some g /\ R (final L []) [] g /\ load_ids L = Some (g_ids g).
Proof.
  intros L A AD. unfold load. destruct (load_ids_R L [] [] A (fun m => eq_refl)) as (ids & E & I1). fold (load_ids L) in E. rewrite E. eexists. split; [reflexivity|]. split; [|reflexivity].
  split; [exact I1|]. split; [exact (load_serv_R L [] [] (fun m => eq_refl))|]. cbn [g_reg]. unfold parse.
  assert (LR0 : LR [] [] []) by (split; [intros m e G; discriminate G | intros a [K|[]]; destruct K; reflexivity]).
  pose proof (parse_LR L [] ([], []) A LR0) as [P1 P2]. destruct (fold_left parse_one L ([], [])) as [all act]. cbn [fst snd] in P1, P2.
  assert (GF : forall a, get a (filter (fun q => existsb (Nat.eqb (fst q)) act) all) = if existsb (Nat.eqb a) act then get a all else None).
  { intros a. apply (get_filter _ (fun k => existsb (Nat.eqb k) act)). }
  assert (EX : forall a, existsb (Nat.eqb a) act = true <-> In a act).
  { intros a. rewrite existsb_exists. split; [intros (b & J & E1); apply Nat.eqb_eq in E1; subst b; exact J | intros J; exists a; split; [exact J | apply Nat.eqb_refl]]. }
  split.
  - intros m e G S. rewrite GF. destruct (P1 m e G) as [Q1 Q2]. destruct (AD m e G) as (a & c & H & _). rewrite (proj2 (EX (e_alias e)) (proj2 Q2 S)), Q1. exists (a, c). split; [exact H | left; exact H].
  - intros a K. rewrite GF in K. destruct (existsb (Nat.eqb a) act) eqn:X; [|contradiction]. apply EX in X. destruct (P2 a (or_intror X)) as (m & e & G & EA). exists m, e. split; [exact G|]. split; [exact EA|].
    apply (P1 m e G). rewrite EA. exact X.
Qed.

(** two registries of the same state say the same *)
Lemma R_same : forall st g g', OK st -> R st [] g -> R st [] g' -> g_ids g = g_ids g' -> same_registry g g'.
Proof.
  intros st g g' [D _] (R1 & R2 & R3 & R4) (Q1 & Q2 & Q3 & Q4) E. split; [exact E|]. split; [intros m; rewrite R2, Q2; reflexivity|]. intros a.
  destruct (get a (g_reg g)) as [h|] eqn:G.
  - destruct (R4 a) as (m & e & GM & EA & S); [congruence|]. destruct (R3 m e GM S) as (h1 & H1 & [H2|(? & X & _)]); [|discriminate X]. destruct (Q3 m e GM S) as (h2 & H3 & [H4|(? & X & _)]); [|discriminate X]. congruence.
  - destruct (get a (g_reg g')) as [h|] eqn:G'; [|reflexivity]. destruct (Q4 a) as (m & e & GM & EA & S); [congruence|]. destruct (R3 m e GM S) as (h1 & H1 & _). congruence.
Qed.

(** ** The registry of a running node *)
Definition GI (n : node) : Prop := exists g, n_reg n = Some g /\ R (n_state n) [] g /\ load_ids (n_ledger n) = Some (g_ids g).
Lemma R_weaken : forall st F g, R st [] g -> R st F g.
Proof. intros st F g (R1 & R2 & R3 & R4). split; [exact R1|]. split; [exact R2|]. split; [|exact R4]. intros m e G S. destruct (R3 m e G S) as (h & H & [K|(? & X & _)]); [exists h; auto | discriminate X]. Qed.
Lemma R_done : forall st g, R st st g -> R st [] g.
Proof. intros st g (R1 & R2 & R3 & R4). split; [exact R1|]. split; [exact R2|]. split; [|exact R4]. intros m e G S. destruct (R3 m e G S) as (h & H & [K|(e' & X & K)]); exists h; split; auto. left. congruence. Qed.
Lemma load_ids_snoc : forall L x ids, load_ids L = Some ids -> load_ids (L ++ [x]) = set_ids ids (x_nym x) (d_alias (x_data x)).
Proof. intros L x ids E. unfold load_ids in *. rewrite fold_left_app. rewrite E. reflexivity. Qed.
Lemma on_changes_R : forall self F ts st g L, SV st -> allv st ts -> allsay st ts -> R st F g -> F = final ts st -> load_ids L = Some (g_ids g) ->
  exists g', on_changes self F (Some g) ts = Some g' /\ R F F g' /\ load_ids (L ++ ts) = Some (g_ids g').
Proof.
  intros self F. induction ts as [|x ts IH]; intros st g L SVS A B RR EF EL.
  - cbn in EF. subst F. exists g. rewrite app_nil_r. auto.
  - destruct A as [V A], B as [SY B]. pose proof (update_SV st x SVS V SY) as SVN.
    destruct (on_change_R self F st F g x SVS V SY RR) as (g' & E & R' & EI).
    { intros e G. assert (GU : get (x_nym x) (update_state st x) = Some (written st x)) by (rewrite get_update, Nat.eqb_refl; reflexivity).
      destruct (allv_alias ts (update_state st x) _ _ A GU) as (eF & GF & _). assert (EF' : F = final ts (update_state st x)) by exact EF.
      destruct (proj2 (proj1 (allv_SV ts _ A B SVN)) _ _ GF) as (a & c & H & _). exists eF, (a, c). rewrite EF'. split; [exact GF|]. split; [exact H|]. intros _. right. exists eF. auto. }
    unfold on_changes. cbn [fold_left]. rewrite E. fold (on_changes self F (Some g') ts).
    destruct (IH (update_state st x) g' (L ++ [x]) SVN A B R' EF) as (g2 & E2 & R2 & L2); [rewrite (load_ids_snoc L x _ EL); exact EI|].
    exists g2. rewrite <- app_assoc in L2. auto.
Qed.
Lemma caught_GI : forall self ts n, n_unc n = [] -> SV (n_state n) -> allv (n_state n) ts -> allsay (n_state n) ts -> GI n -> GI (fold_left (caught self) ts n).
Proof.
  intros self. induction ts as [|x ts IH]; intros n U SVS A B (g & EG & RR & EL); cbn [fold_left]; [exists g; auto|]. destruct A as [V A], B as [SY B].
  destruct (on_change_R self (n_state n) (n_state n) [] g x SVS V SY RR) as (g' & E & R' & EI).
  { intros e G. destruct (proj2 (proj1 SVS) _ _ G) as (a & c & H & _). exists e, (a, c). auto. }
  apply IH; [reflexivity|exact (update_SV _ x SVS V SY)|exact A|exact B|]. exists g'. cbn [caught n_reg n_state n_ledger]. rewrite EG. split; [exact E|]. split; [exact R'|].
  rewrite (load_ids_snoc _ x _ EL). exact EI.
Qed.
Lemma announced_prefix : forall a b, announced (a ++ b) -> announced a.
Proof. intros a b AN l1 x l2 E. apply (AN l1 x (l2 ++ b)). rewrite E, <- app_assoc. reflexivity. Qed.
Lemma GI_step : forall self n e, NI (fun _ => True) n -> GI n -> announced (n_ledger (step self n e)) -> GI (step self n e).
Proof.
  intros self n e NN (g & EG & RR & EL) AN. pose proof (NI_step _ self n e NN (fun _ _ => Logic.I)) as (SN & ANV & _ & _). destruct NN as (S & A & _ & U).
  assert (SVS : SV (n_state n)).
  { rewrite S. apply allv_SV; [exact A | | exact SV_nil]. apply announced_allsay. destruct (ledger_grows self [e] n) as [r E]. cbn [run fold_left] in E. rewrite E in AN. exact (announced_prefix _ _ AN). }
  destruct e as [rs| | |rs|]; cbn [step] in *.
  - exists g. auto.
  - destruct (n_unc n) as [|[ts st] r]; [exists g; auto|]. destruct U as (A1 & E1 & _ & U). cbn [n_ledger] in AN. rewrite EG.
    destruct (on_changes_R self st ts (n_state n) g (n_ledger n) SVS A1) as (g' & E' & R' & L'); [| apply R_weaken; exact RR | exact E1 | exact EL |].
    { apply announced_allsay in AN. apply allsay_app in AN as [_ AN]. rewrite <- S in AN. exact AN. }
    exists g'. cbn [n_reg n_state n_ledger]. split; [exact E'|]. split; [apply R_done; exact R' | exact L'].
  - exists g. auto.
  - destruct (apply_batch (n_state n) rs) as [ts st'] eqn:E. destruct (apply_batch_spec _ _ _ _ E) as (A1 & E1 & IN). cbn [fst] in *.
    destruct (caught_fold self ts (mkN (n_ledger n) (n_state n) [] (n_reg n)) eq_refl) as (F1 & _ & _). cbn [n_ledger] in F1. rewrite F1 in AN.
    apply caught_GI; [reflexivity | exact SVS | exact A1 | | exists g; auto]. apply announced_allsay in AN. apply allsay_app in AN as [_ AN]. rewrite <- S in AN. exact AN.
  - destruct (load_R (n_ledger n) A) as (g' & E' & R' & L'); [rewrite <- S; exact (proj2 (proj1 SVS))|]. exists g'. cbn [n_reg n_state n_ledger]. rewrite S. auto.
Qed.
Lemma GI_run : forall self es n, NI (fun _ => True) n -> GI n -> announced (n_ledger (run self n es)) -> GI (run self n es).
Proof.
  intros self. induction es as [|e es IH]; intros n NN G AN; [exact G|]. apply IH; [apply NI_step; auto | | exact AN].
  apply GI_step; [exact NN | exact G|]. destruct (ledger_grows self es (step self n e)) as [r E]. change (run self n (e :: es)) with (run self (step self n e) es) in AN. rewrite E in AN. exact (announced_prefix _ _ AN).
Qed.
Lemma init_GI : forall g, genesis_ok g -> GI (init g).
Proof.
  intros g GO. destruct (genesis_NI g GO) as (S & A & _ & _). cbn [n_ledger init n_state] in *. destruct (load_R g A) as (r & E & RR & L); [exact (proj2 (allv_OK g [] A OK_nil))|].
  exists r. auto.
Qed.

(** ** What the ledger means *)
Lemma of_node_snoc : forall m L x, of_node m (L ++ [x]) = of_node m L ++ (if x_nym x =? m then [x_data x] else []).
Proof. intros m L x. unfold of_node. rewrite filter_app, map_app. cbn [filter]. destruct (x_nym x =? m); reflexivity. Qed.
Lemma last_some_snoc : forall A (l : list (option A)) o, last_some (l ++ [o]) = orelse o (last_some l).
Proof. intros A l o. induction l as [|y l IH]; cbn [app last_some]; [destruct o; reflexivity|]. rewrite IH. destruct o; cbn [orelse]; reflexivity. Qed.
Lemma final_entry : forall L m e, allv [] L -> get m (final L []) = Some e ->
  e_serv e = last_some (map d_serv (of_node m L)) /\ e_ha e = last_some (map d_ha (of_node m L)) /\ of_node m L <> [] /\ forall d, In d (of_node m L) -> d_alias d = e_alias e.
Proof.
  induction L as [|x L IH] using rev_ind; intros m e A G; [discriminate G|]. apply allv_app in A as [A [V _]]. rewrite final_app in G. cbn [final fold_left] in G. fold (final L []) in G. rewrite get_update in G.
  rewrite of_node_snoc. destruct (Nat.eqb_spec m (x_nym x)) as [->|N].
  - rewrite Nat.eqb_refl. injection G as <-. rewrite written_alias. rewrite !map_app. cbn [map]. rewrite !last_some_snoc. destruct (valid_spec _ _ V) as (_ & _ & X). unfold written.
    destruct (get (x_nym x) (final L [])) as [e0|] eqn:G0.
    + destruct (IH _ _ A G0) as (I1 & I2 & I3 & I4). cbn [merge e_serv e_ha]. rewrite <- I1, <- I2. split; [reflexivity|]. split; [reflexivity|]. split; [intros E; apply app_eq_nil in E as [E _]; contradiction|].
      intros d J. apply in_app_or in J as [J|[<-|[]]]; [rewrite (I4 d J); exact X | reflexivity].
    + assert (O : of_node (x_nym x) L = []).
      { unfold of_node. assert (K : filter (fun y => x_nym y =? x_nym x) L = []).
        { destruct (filter _ L) as [|y r] eqn:F; [reflexivity|]. assert (J : In y (filter (fun y => x_nym y =? x_nym x) L)) by (rewrite F; left; reflexivity). apply filter_In in J as [J E]. apply Nat.eqb_eq in E. destruct (proj1 (final_none L (x_nym x)) G0 y J E). }
        rewrite K. reflexivity. }
      rewrite O. cbn [map last_some app fresh e_serv e_ha]. split; [destruct (d_serv (x_data x)); reflexivity|]. split; [destruct (d_ha (x_data x)); reflexivity|]. split; [discriminate|]. intros d [<-|[]]. reflexivity.
  - destruct (Nat.eqb_spec (x_nym x) m) as [Z|_]; [congruence|]. rewrite app_nil_r. exact (IH m e A G).
Qed.
Lemma registered_iff : forall L alias h, allv [] L -> (registered L alias h <-> exists m e, get m (final L []) = Some e /\ e_alias e = alias /\ e_serv e = Some true /\ e_ha e = Some h).
Proof.
  intros L alias h A. split.
  - intros (m & d & J & EA & S & H). destruct (get m (final L [])) as [e|] eqn:G.
    + destruct (final_entry L m e A G) as (E1 & E2 & _ & E4). exists m, e. split; [exact G|]. split; [rewrite <- EA; symmetry; exact (E4 d J)|]. split; [rewrite E1; exact S | rewrite E2; exact H].
    + exfalso. unfold of_node in J. apply in_map_iff in J as (y & _ & J). apply filter_In in J as [J E]. apply Nat.eqb_eq in E. exact (proj1 (final_none L m) G y J E).
  - intros (m & e & G & EA & S & H). destruct (final_entry L m e A G) as (E1 & E2 & E3 & E4). destruct (of_node m L) as [|d r] eqn:O; [contradiction|]. exists m, d.
    rewrite O. split; [left; reflexivity|]. split; [rewrite <- EA; apply E4; left; reflexivity|]. split; [rewrite <- E1; exact S | rewrite <- E2; exact H].
Qed.
