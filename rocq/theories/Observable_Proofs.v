(** Invariants for C95. *)
From Coq Require Import List Arith Bool Lia.
From Verif Require Import Observable_Model Observable_Spec.
Import ListNotations.

Lemma mem_in x l : mem x l = true <-> In x l.
Proof.
  unfold mem. rewrite existsb_exists. split.
  - intros (y & H & E). apply Nat.eqb_eq in E. now subst.
  - intros H. exists x. split; [exact H | apply Nat.eqb_refl].
Qed.
Lemma limited_rest {A} limit (l : list A) : limited limit l ++ rest limit l = l.
Proof. unfold limited, rest. destruct (limit =? 0); [apply app_nil_r | apply firstn_skipn]. Qed.

(** the observers *)
Lemma count_remove x y l : count_occ Nat.eq_dec (remove1 y l) x = if x =? y then count_occ Nat.eq_dec l x - 1 else count_occ Nat.eq_dec l x.
Proof.
  induction l as [|z l IH]; cbn [remove1]; [destruct (x =? y); reflexivity|].
  destruct (y =? z) eqn:E.
  - apply Nat.eqb_eq in E. subst. cbn [count_occ]. destruct (Nat.eq_dec z x) as [->|N].
    + rewrite Nat.eqb_refl. lia.
    + destruct (x =? z) eqn:F; [apply Nat.eqb_eq in F; congruence | reflexivity].
  - cbn [count_occ]. rewrite IH. destruct (Nat.eq_dec z x) as [->|N]; [|reflexivity].
    rewrite Nat.eqb_sym in E. rewrite E. reflexivity.
Qed.
Lemma fold_new l : forall s, let s' := fold_left process_new_batch l s in
  remotes s' = remotes s /\ observers s' = observers s /\ inbox s' = inbox s /\ sent s' = sent s /\
  outbox s' = outbox s ++ match observers s with [] => [] | _ :: _ => l end.
Proof.
  induction l as [|b l IH]; intros s; cbn [fold_left].
  - cbv zeta. repeat split. destruct (observers s); now rewrite app_nil_r.
  - destruct (IH (process_new_batch s b)) as (A & B & C & D & E). cbv zeta.
    rewrite A, B, C, D, E. unfold process_new_batch. destruct (observers s) as [|o os] eqn:O; [rewrite O; auto|].
    cbn [remotes observers inbox sent outbox]. repeat split. now rewrite <- app_assoc.
Qed.
Lemma service_spec s limit : let s' := service s true limit in
  remotes s' = remotes s /\ observers s' = observers s /\ inbox s' = rest limit (inbox s) /\
  outbox s' = rest limit (outbox s) ++ match observers s with [] => [] | _ :: _ => limited limit (inbox s) end /\
  sent s' = sent s ++ map (fun b => (b, recipients (remotes s) (observers s))) (limited limit (outbox s)).
Proof.
  cbv zeta. unfold service, service_in.
  match goal with |- context [fold_left process_new_batch ?l ?t] => destruct (fold_new l t) as (A & B & C & D & E) end.
  rewrite A, B, C, D, E. cbn [service_out remotes observers inbox outbox sent]. auto.
Qed.
Lemma service_keeps s ready limit : remotes (service s ready limit) = remotes s /\ observers (service s ready limit) = observers s.
Proof. destruct ready; [|auto]. destruct (service_spec s limit) as (A & B & _). auto. Qed.
Lemma observers_count x os : forall s, count_occ Nat.eq_dec (observers (run s os)) x = times x (count_occ Nat.eq_dec (observers s) x) os.
Proof.
  induction os as [|o os IH]; intros s; [reflexivity|]. change (run s (o :: os)) with (run (step s o) os). rewrite IH.
  destruct o as [y [|] | y | b [|] | r n | r | ready limit]; cbn [step times observers]; try reflexivity.
  - f_equal. rewrite count_occ_app. cbn [count_occ]. destruct (Nat.eq_dec y x) as [->|N].
    + rewrite Nat.eqb_refl. lia.
    + destruct (x =? y) eqn:E; [apply Nat.eqb_eq in E; congruence | lia].
  - now rewrite count_remove.
  - now destruct (service_keeps s ready limit) as [_ ->].
Qed.
Lemma observers_run x os : In x (observers (run init os)) <-> observes os x.
Proof. unfold observes. rewrite (count_occ_In Nat.eq_dec), observers_count. cbn. lia. Qed.

(** the remotes *)
Fixpoint lookup (r : nat) (l : list (nat * nat)) : option nat :=
  match l with [] => None | (q, n) :: t => if r =? q then Some n else lookup r t end.
Lemma lookup_set r q n l : lookup r (set q n l) = if r =? q then Some n else lookup r l.
Proof.
  induction l as [|[p m] t IH]; cbn [set lookup]; [reflexivity|]. destruct (q =? p) eqn:E; cbn [lookup].
  - apply Nat.eqb_eq in E. subst. destruct (r =? p); reflexivity.
  - rewrite IH. destruct (r =? p) eqn:F; [|reflexivity]. apply Nat.eqb_eq in F. subst. rewrite Nat.eqb_sym, E. reflexivity.
Qed.
Lemma lookup_filter r q l : lookup r (filter (fun e => negb (fst e =? q)) l) = if r =? q then None else lookup r l.
Proof.
  induction l as [|[p m] t IH]; cbn [filter lookup fst]; [destruct (r =? q); reflexivity|].
  destruct (p =? q) eqn:E; cbn [negb lookup]; rewrite IH.
  - apply Nat.eqb_eq in E. subst. destruct (r =? q); reflexivity.
  - destruct (r =? p) eqn:F; [|reflexivity]. apply Nat.eqb_eq in F. subst. now rewrite E.
Qed.
Lemma set_fst r n l : NoDup (map fst l) -> NoDup (map fst (set r n l)) /\ (forall x, In x (map fst (set r n l)) -> x = r \/ In x (map fst l)).
Proof.
  induction l as [|[q m] t IH]; cbn [set map fst]; intros N.
  - split; [constructor; [intros [] | constructor] | intros x [<-|[]]; auto].
  - inversion N as [|a b N1 N2]; subst. destruct (r =? q) eqn:E.
    + apply Nat.eqb_eq in E. subst. cbn [map fst]. split; [exact N|]. intros x [<-|H]; auto. right. now right.
    + destruct (IH N2) as [I1 I2]. cbn [map fst]. split.
      * constructor; [|exact I1]. intros H. apply I2 in H as [->|H]; [rewrite Nat.eqb_refl in E; discriminate | auto].
      * intros x [<-|H]; [right; now left|]. apply I2 in H as [->|H]; [now left | right; now right].
Qed.
Lemma filter_fst (f : nat * nat -> bool) l : NoDup (map fst l) -> NoDup (map fst (filter f l)).
Proof.
  induction l as [|e t IH]; cbn [filter map]; [auto|]. intros N. inversion N as [|a b N1 N2]; subst.
  destruct (f e); [|now apply IH]. cbn [map]. constructor; [|now apply IH]. intros H. apply N1.
  apply in_map_iff in H as (x & E & H). apply filter_In in H as [H _]. rewrite <- E. now apply in_map.
Qed.
Lemma lookup_in r n l : NoDup (map fst l) -> (lookup r l = Some n <-> In (r, n) l).
Proof.
  induction l as [|[q m] t IH]; cbn [lookup map fst]; intros N; [split; [discriminate | intros []]|].
  inversion N as [|a b N1 N2]; subst. destruct (r =? q) eqn:E.
  - apply Nat.eqb_eq in E. subst. split.
    + intros H. injection H as ->. now left.
    + intros [H|H]; [congruence|]. exfalso. apply N1. change q with (fst (q, n)). now apply in_map.
  - rewrite (IH N2). split; [intros H; now right|]. intros [H|H]; [|exact H]. inversion H; subst. rewrite Nat.eqb_refl in E. discriminate.
Qed.
Lemma remotes_run r os : forall s, NoDup (map fst (remotes s)) -> NoDup (map fst (remotes (run s os))) /\
  lookup r (remotes (run s os)) = name_of r (lookup r (remotes s)) os.
Proof.
  induction os as [|o os IH]; intros s N; [auto|]. change (run s (o :: os)) with (run (step s o) os).
  assert (N' : NoDup (map fst (remotes (step s o)))).
  { destruct o as [y [|] | y | b [|] | q n | q | ready limit]; cbn [step remotes]; try exact N.
    - now apply set_fst.
    - now apply filter_fst.
    - now destruct (service_keeps s ready limit) as [-> _]. }
  destruct (IH (step s o) N') as [H1 H2]. split; [exact H1|]. rewrite H2.
  destruct o as [y [|] | y | b [|] | q n | q | ready limit]; cbn [step remotes name_of]; try reflexivity.
  - now rewrite lookup_set.
  - now rewrite lookup_filter.
  - now destruct (service_keeps s ready limit) as [-> _].
Qed.
Lemma remotes_there r n os : In (r, n) (remotes (run init os)) <-> there os r n.
Proof.
  destruct (remotes_run r os init) as [N H]; [constructor|]. unfold there. rewrite <- (lookup_in r n _ N), H. reflexivity.
Qed.

(** what is sent *)
Lemma recipients_in rem names r : In r (recipients rem names) <->
  (exists n, In (r, n) rem /\ In n names) \/ ((~ exists q n, In (q, n) rem /\ In n names) /\ exists n, In (r, n) rem).
Proof.
  assert (X : forall q, In q (rids rem names) <-> exists n, In (q, n) rem /\ In n names).
  { intros q. unfold rids. destruct names as [|x xs].
    - split; [intros [] | intros (n & _ & [])].
    - rewrite in_map_iff. split.
      + intros ([a b] & E & H). apply filter_In in H as [H M]. cbn [fst snd] in *. subst a. exists b. split; [exact H | now apply mem_in].
      + intros (n & H & M). exists (q, n). split; [reflexivity|]. apply filter_In. split; [exact H | now apply mem_in]. }
  unfold recipients. destruct (rids rem names) as [|y ys].
  - split.
    + intros H. right. split.
      * intros (q & n & H2). destruct (proj2 (X q)). now exists n.
      * apply in_map_iff in H as ([a b] & E & H). cbn in E. subst. now exists b.
    + intros [H|[_ (n & H)]]; [apply X in H; destruct H|]. change r with (fst (r, n)). now apply in_map.
  - rewrite X. split; [now left|]. intros [H|[H _]]; [exact H|]. exfalso. apply H. destruct (proj1 (X y) (or_introl eq_refl)) as (n & A). now exists y, n.
Qed.
Lemma recipients_length rem names : NoDup (map fst rem) -> NoDup (recipients rem names).
Proof.
  intros N. unfold recipients. assert (X : NoDup (rids rem names)).
  { unfold rids. destruct names; [constructor | now apply filter_fst]. }
  destruct (rids rem names); [exact N | exact X].
Qed.
Lemma sent_step s o b rs : In (b, rs) (sent (step s o)) -> In (b, rs) (sent s) \/
  (rs = recipients (remotes s) (observers s) /\ exists limit, o = Service true limit).
Proof.
  destruct o as [y [|] | y | c [|] | q n | q | [|] limit]; cbn [step sent]; auto.
  destruct (service_spec s limit) as (_ & _ & _ & _ & E). rewrite E. intros H. apply in_app_iff in H as [H|H]; [auto|].
  apply in_map_iff in H as (x & H & _). injection H as _ <-. right. eauto.
Qed.
Lemma sent_run b rs os : forall s, In (b, rs) (sent (run s os)) -> In (b, rs) (sent s) \/
  exists h limit t, os = h ++ Service true limit :: t /\ rs = recipients (remotes (run s h)) (observers (run s h)).
Proof.
  induction os as [|o os IH]; intros s H; [now left|]. change (run s (o :: os)) with (run (step s o) os) in H.
  apply IH in H as [H|(h & limit & t & E & R)].
  - apply sent_step in H as [H|[R (limit & ->)]]; [now left|]. right. exists [], limit, os. auto.
  - right. exists (o :: h), limit, t. subst os. auto.
Qed.

(** conservation *)
Definition all (s : nod) : list nat := map fst (sent s) ++ outbox s ++ inbox s.
Lemma part_refl {A} (l : list A) : part l l.
Proof. induction l; constructor; assumption. Qed.
Lemma part_app {A} (a b c d : list A) : part a b -> part c d -> part (a ++ c) (b ++ d).
Proof. induction 1; intros H2; cbn; [exact H2 | constructor; auto | constructor; auto]. Qed.
Lemma part_none {A} (l : list A) : part [] l.
Proof. induction l; constructor; assumption. Qed.
Lemma part_trans {A} (a b c : list A) : part a b -> part b c -> part a c.
Proof.
  intros H1 H2. revert a H1. induction H2 as [|x l l' H IH|x l l' H IH]; intros a H1; [exact H1 | |constructor; auto].
  inversion H1; subst; constructor; auto.
Qed.
Lemma all_service s limit : part (all (service s true limit)) (all s) /\ (observers s <> [] -> all (service s true limit) = all s).
Proof.
  destruct (service_spec s limit) as (_ & _ & I & O & E). unfold all. rewrite I, O, E, map_app, map_map. cbn [fst]. rewrite map_id.
  assert (X : forall l, (map fst (sent s) ++ limited limit (outbox s)) ++ (rest limit (outbox s) ++ l) ++ rest limit (inbox s) =
    map fst (sent s) ++ outbox s ++ l ++ rest limit (inbox s)).
  { intros l. rewrite <- !app_assoc. f_equal. rewrite app_assoc, limited_rest. reflexivity. }
  rewrite X. destruct (observers s) as [|o os].
  - split; [|congruence]. apply part_app; [apply part_refl|]. apply part_app; [apply part_refl|].
    rewrite <- (limited_rest limit (inbox s)) at 2. apply part_app; [apply part_none | apply part_refl].
  - rewrite limited_rest. split; [apply part_refl | reflexivity].
Qed.
Lemma all_step s o : part (all (step s o)) (all s ++ committed [o]) /\ (observers s <> [] -> all (step s o) = all s ++ committed [o]).
Proof.
  assert (P : forall x : list nat, part x (x ++ [])) by (intros x; rewrite app_nil_r; apply part_refl).
  assert (Q : forall x : list nat, x = x ++ []) by (intros x; now rewrite app_nil_r).
  destruct o as [y [|] | y | c [|] | q n | q | [|] limit]; cbn [committed flat_map app]; try (split; [apply P | intros _; apply Q]).
  - assert (E : all (step s (Commit c true)) = all s ++ [c]) by (unfold all; cbn [step sent outbox inbox]; now rewrite <- !app_assoc).
    rewrite E. split; [apply part_refl | auto].
  - rewrite app_nil_r. apply all_service.
Qed.
Lemma committed_cons o os : committed (o :: os) = committed [o] ++ committed os.
Proof. unfold committed. cbn [flat_map]. now rewrite app_nil_r. Qed.
Lemma all_run os : forall s, part (all (run s os)) (all s ++ committed os).
Proof.
  induction os as [|o os IH]; intros s; [cbn; rewrite app_nil_r; apply part_refl|].
  change (run s (o :: os)) with (run (step s o) os). rewrite committed_cons, app_assoc.
  apply part_trans with (1 := IH (step s o)). apply part_app; [apply all_step | apply part_refl].
Qed.
Lemma all_run_eq os : forall s, (forall h t limit, os = h ++ Service true limit :: t -> observers (run s h) <> []) ->
  all (run s os) = all s ++ committed os.
Proof.
  induction os as [|o os IH]; intros s H; [cbn; now rewrite app_nil_r|].
  change (run s (o :: os)) with (run (step s o) os). rewrite committed_cons, app_assoc, IH.
  - f_equal. destruct o as [y [|] | y | c [|] | q n | q | [|] limit]; cbn [committed flat_map app]; try (now rewrite app_nil_r).
    + unfold all; cbn [step sent outbox inbox]; now rewrite <- !app_assoc.
    + rewrite app_nil_r. apply all_service. apply (H [] os limit). reflexivity.
  - intros h t limit E. subst os. apply (H (o :: h) t limit). reflexivity.
Qed.

(** progress *)
Lemma rest_shorter {A} limit (l : list A) : length (rest limit l) <= length l /\ (l <> [] -> S (length (rest limit l)) <= length l).
Proof.
  unfold rest. destruct (limit =? 0) eqn:E; [split; [cbn; lia|]; destruct l; [congruence | cbn; lia]|].
  apply Nat.eqb_neq in E. rewrite skipn_length. split; [lia|]. destruct l; [congruence|]. cbn [length]. lia.
Qed.
Lemma empties limits : forall s, length (outbox s) + 2 * length (inbox s) <= length limits ->
  let s' := run s (map (Service true) limits) in outbox s' = [] /\ inbox s' = [].
Proof.
  induction limits as [|limit ls IH]; intros s H; cbn [map].
  - cbn in *. destruct (outbox s); [|cbn in H; lia]. destruct (inbox s); [auto | cbn in H; lia].
  - change (run s (Service true limit :: map (Service true) ls)) with (run (step s (Service true limit)) (map (Service true) ls)).
    apply IH. cbn [step]. destruct (service_spec s limit) as (_ & _ & I & O & _). rewrite I, O, app_length.
    assert (L : length (match observers s with [] => [] | _ :: _ => limited limit (inbox s) end) <= length (inbox s) - length (rest limit (inbox s))).
    { pose proof (f_equal (@length nat) (limited_rest limit (inbox s))) as F. rewrite app_length in F. destruct (observers s); cbn [length]; lia. }
    destruct (rest_shorter limit (outbox s)) as [A1 A2]. destruct (rest_shorter limit (inbox s)) as [B1 B2]. cbn [length] in H.
    destruct (outbox s) as [|x xs]; destruct (inbox s) as [|y ys]; cbn [length] in *;
      try (specialize (A2 ltac:(discriminate))); try (specialize (B2 ltac:(discriminate))); lia.
Qed.
Lemma services_quiet limits : forall s, remotes (run s (map (Service true) limits)) = remotes s /\ observers (run s (map (Service true) limits)) = observers s.
Proof.
  induction limits as [|l ls IH]; intros s; [auto|]. cbn [map].
  change (run s (Service true l :: map (Service true) ls)) with (run (step s (Service true l)) (map (Service true) ls)).
  destruct (IH (step s (Service true l))) as [-> ->]. apply service_keeps.
Qed.
