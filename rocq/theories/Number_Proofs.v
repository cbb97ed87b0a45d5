(** Proofs for C77. *)
From Coq Require Import List Arith Bool Lia.
From Verif Require Import Base Dict Number_Model Number_Spec.
Import ListNotations.

Lemma get_map_reps f rs i : get i (map_reps f rs) = option_map (f i) (get i rs).
Proof.
  induction rs as [|[k r] rs IH]; [reflexivity|]. cbn [map_reps map get]. destruct (i =? k) eqn:E; [|exact IH].
  apply Nat.eqb_eq in E. subst k. reflexivity.
Qed.

Lemma NoDup_app_snoc {A} (l : list A) x : NoDup l -> ~ In x l -> NoDup (l ++ [x]).
Proof.
  intros N H. induction N as [|y l Hy N IH]; [constructor; [intros []|constructor]|]. cbn [app]. constructor.
  - intros X. apply in_app_or in X. destruct X as [X|[->|[]]]; [contradiction|]. apply H. left. reflexivity.
  - apply IH. intros X. apply H. right. exact X.
Qed.

Section N.
  Variable insts : list nat.
  Variable am : nat -> nat -> bool.
  Variable mif : option nat.
  Notation step := (step insts am mif).
  Notation run := (run insts am mif).
  Notation init := (init insts am).

  Lemma restore_reps_keep i rs r : get i rs = Some r -> get i (restore_reps insts rs) = Some r.
  Proof.
    unfold restore_reps. revert rs. induction insts as [|k l IH]; intros rs H; [exact H|]. cbn [fold_left]. apply IH.
    destruct (get k rs) eqn:E; [exact H|]. rewrite get_set. destruct (i =? k) eqn:Ek; [|exact H]. apply Nat.eqb_eq in Ek. congruence.
  Qed.
  Lemma restore_reps_keep_l l i rs r : get i rs = Some r ->
    get i (fold_left (fun rs i => match get i rs with Some _ => rs | None => set i fresh rs end) l rs) = Some r.
  Proof.
    revert rs. induction l as [|k l IH]; intros rs H; [exact H|]. cbn [fold_left]. apply IH.
    destruct (get k rs) eqn:E; [exact H|]. rewrite get_set. destruct (i =? k) eqn:Ek; [|exact H]. apply Nat.eqb_eq in Ek. congruence.
  Qed.
  Lemma restore_reps_cases i rs : In i insts -> get i (restore_reps insts rs) = Some (match get i rs with Some r => r | None => fresh end).
  Proof.
    unfold restore_reps. revert rs. induction insts as [|k l IH]; intros rs Hi; [destruct Hi|]. cbn [fold_left].
    destruct (Nat.eq_dec i k) as [<-|Nk].
    - destruct (get i rs) as [r|] eqn:E; apply restore_reps_keep_l; [exact E|]. rewrite get_set, Nat.eqb_refl. reflexivity.
    - destruct Hi as [Hi|Hi]; [congruence|]. rewrite IH by exact Hi. destruct (get k rs); [reflexivity|]. rewrite get_set. apply Nat.eqb_neq in Nk. rewrite Nk. reflexivity.
  Qed.

  Definition restored_rep (d : dict (nat * nat)) (i : nat) (r : rep) : rep :=
    match get i d, prim r with Some (v, n), Some _ => set_ordered (v, n) (raise n r) | _, _ => r end.
  Lemma get_restore d i rs : NoDup (map fst d) -> get i (snd (restore d rs)) = option_map (restored_rep d i) (get i rs).
  Proof.
    revert rs. induction d as [|[k [v n]] d IH]; intros rs N.
    - cbn. destruct (get i rs); reflexivity.
    - inversion N as [|? ? Nk Nd]; subst. cbn [restore]. unfold restored_rep. cbn [get].
      destruct (Nat.eqb_spec i k) as [<-|Ne].
      + assert (get i d = None) as Gd by (apply get_none; exact Nk).
        destruct (get i rs) as [r|] eqn:Gr.
        * destruct (prim r) eqn:P.
          -- cbn [snd]. rewrite IH by exact Nd. rewrite get_set, Nat.eqb_refl. cbn [option_map]. unfold restored_rep. rewrite Gd, P. reflexivity.
          -- rewrite IH by exact Nd. rewrite Gr. cbn [option_map]. unfold restored_rep. rewrite Gd, P. reflexivity.
        * rewrite IH by exact Nd. rewrite Gr. reflexivity.
      + destruct (get k rs) as [rk|] eqn:Gk; [destruct (prim rk)|]; cbn [snd]; rewrite IH by exact Nd; [|reflexivity|reflexivity].
        rewrite get_set. apply Nat.eqb_neq in Ne. rewrite Ne. reflexivity.
  Qed.

  (** what is on disk of an instance *)
  Definition disk (i : nat) (s : node) : option (nat * nat) := match store s with Some d => get i d | None => None end.
  Definition sound_store (s : node) : Prop := forall d, store s = Some d -> NoDup (map fst d).

  Lemma disk_save i j n s : disk i (save j n s) = if i =? j then Some (view s, n) else disk i s.
  Proof. unfold disk, save. cbn [store]. rewrite get_set. destruct (i =? j); [reflexivity|]. destruct (store s); reflexivity. Qed.
  Lemma sound_save j n s : sound_store s -> sound_store (save j n s).
  Proof. intros H d. unfold save. cbn [store]. intros E. injection E as <-. apply nodup_set. destruct (store s) as [d|] eqn:Es; [apply H; exact Es|constructor]. Qed.

  (** the end of a catch-up, seen from an instance *)
  Definition audit_after (s : node) (a : option nat) : option nat := match a with Some _ => a | None => audit s end.
  Lemma catchup_frame s a : let s' := fst (step s (Catchup a)) in
    view s' = view_after s a /\ audit s' = audit_after s a /\ target s' = target s /\ part s' = true /\ (store s' = store s \/ store s' = None).
  Proof.
    cbn [Number_Model.step fst]. unfold on_catchup. fold (audit_after s a).
    match goal with |- context [let '(_, _) := ?x in _] => destruct x as [b rs'] end. cbn [view audit target part store].
    split; [unfold view_after, audit_after; destruct a; reflexivity|]. repeat split. destruct b; [left|right]; reflexivity.
  Qed.
  Lemma restore_true i d rs r : get i d <> None -> get i rs = Some r -> prim r <> None -> fst (restore d rs) = true.
  Proof.
    revert rs r. induction d as [|[k [v n]] d IH]; intros rs r N0 Gr Pr; [contradiction|]. cbn [restore].
    destruct (get k rs) as [rk|] eqn:Gk.
    - destruct (prim rk) eqn:Pk; [reflexivity|]. apply (IH _ r); [|exact Gr|exact Pr]. cbn [get] in N0. destruct (Nat.eqb_spec i k) as [<-|]; [congruence|exact N0].
    - apply (IH _ r); [|exact Gr|exact Pr]. cbn [get] in N0. destruct (Nat.eqb_spec i k) as [<-|]; [congruence|exact N0].
  Qed.
  Lemma catchup_rep i s a : In i insts -> sound_store s ->
    let s' := fst (step s (Catchup a)) in
    let r0 := match get i (reps s) with Some r => r | None => fresh end in
    exists r2, get i (reps s') = Some r2 /\ prim r2 = Some (am i (view_after s a)) /\ waiting r2 = waiting r0 /\
      (last_pp r2 = last_pp r0 /\ last_ord r2 = last_ord r0 /\ (disk i s' = None) /\
         (disk i s = None \/ view s <> 0 \/ audit_after s a = None) \/
       exists v n, disk i s = Some (v, n) /\ last_pp r2 = max (last_pp r0) n /\ last_ord r2 = (v, n) /\ store s' = store s).
  Proof.
    intros Hi Ss s' r0. subst s'. cbn [Number_Model.step fst]. unfold on_catchup. fold (audit_after s a).
    assert (match audit_after s a with Some v => v | None => view s end = view_after s a) as -> by (unfold view_after, audit_after; destruct a; reflexivity).
    remember (match audit_after s a with Some _ => Some (view s) | None => prev s end) as prev' eqn:Hp.
    remember (map_reps (select am (view_after s a)) (map_reps (fun _ r => mkRep None (waiting r) (reordered r) (last_pp r) (last_ord r)) (restore_reps insts (reps s)))) as rs eqn:Hrs.
    assert (get i rs = Some (mkRep (Some (am i (view_after s a))) (waiting r0) (reordered r0) (last_pp r0) (last_ord r0))) as Gr.
    { rewrite Hrs, !get_map_reps, restore_reps_cases by exact Hi. reflexivity. }
    assert (forall rs' b, get i rs' = Some b -> get i (map_reps (fun _ r => mkRep (prim r) (waiting r) true (last_pp r) (last_ord r)) rs') =
              Some (mkRep (prim b) (waiting b) true (last_pp b) (last_ord b))) as G2 by (intros rs' b E; rewrite get_map_reps, E; reflexivity).
    assert (forall d, prev' = Some 0 -> store s = Some d -> match prev', store s with Some 0, Some d => restore d rs | _, _ => (false, rs) end = restore d rs) as X1 by (intros d -> ->; reflexivity).
    assert (prev' <> Some 0 \/ store s = None -> match prev', store s with Some 0, Some d => restore d rs | _, _ => (false, rs) end = (false, rs)) as X2.
    { intros [N|N]; [destruct prev' as [[|]|]; [congruence|reflexivity|reflexivity]|]. rewrite N. destruct prev' as [[|]|]; reflexivity. }
    assert ((exists d, prev' = Some 0 /\ store s = Some d) \/ (prev' <> Some 0 \/ store s = None)) as [(d & P0 & Sd)|X].
    { destruct prev' as [[|]|]; [destruct (store s) as [d|]; [left; exists d; auto|right; right; reflexivity]|right; left; discriminate|right; left; discriminate]. }
    - rewrite (X1 d P0 Sd). clear X1 X2. destruct (restore d rs) as [b rs'] eqn:Er. cbn [reps].
      assert (rs' = snd (restore d rs)) as -> by (rewrite Er; reflexivity).
      pose proof (get_restore d i rs (Ss d Sd)) as G. rewrite Gr in G. cbn [option_map] in G.
      eexists. split; [apply G2; exact G|]. cbn [prim waiting last_pp last_ord]. unfold restored_rep. cbn [prim].
      destruct (get i d) as [[v n]|] eqn:Gd.
      + cbn [set_ordered raise prim waiting last_pp last_ord snd]. split; [reflexivity|]. split; [reflexivity|]. right. exists v, n.
        unfold disk. rewrite Sd, Gd. split; [reflexivity|]. split; [lia|]. split; [reflexivity|]. cbn [store].
        assert (b = true) as -> by (change b with (fst (b, snd (restore d rs))); rewrite <- Er; eapply restore_true; [rewrite Gd; discriminate|exact Gr|discriminate]). reflexivity.
      + cbn [prim waiting last_pp last_ord]. repeat split. left. unfold disk. rewrite Sd, Gd. cbn [store]. repeat split; [|left; reflexivity]. destruct b; [exact Gd|reflexivity].
    - rewrite (X2 X). clear X1 X2. cbn [reps]. eexists. split; [apply G2; exact Gr|]. cbn [prim waiting last_pp last_ord]. repeat split. left. repeat split.
      destruct X as [X|X]; [|left; unfold disk; rewrite X; reflexivity]. destruct (audit_after s a) as [v|]; [|right; right; reflexivity]. right; left. intros E. rewrite E in Hp. congruence.
  Qed.

  Lemma sent_app i a b : sent i (a ++ b) = sent i a ++ sent i b.
  Proof. unfold sent. apply flat_map_app. Qed.
  Lemma run_app s p q : run s (p ++ q) = (fst (run (fst (run s p)) q), snd (run s p) ++ snd (run (fst (run s p)) q)).
  Proof.
    revert s. induction p as [|o p IH]; intros s; cbn [app Number_Model.run].
    - cbn [fst snd]. destruct (run s q); reflexivity.
    - destruct (step s o) as [s1 e1]. rewrite IH. destruct (run s1 p) as [s2 e2]. cbn [fst snd]. destruct (run s2 q) as [s3 e3]. cbn [fst snd]. rewrite app_assoc. reflexivity.
  Qed.
  Lemma run_snoc s p o : run s (p ++ [o]) = (fst (step (fst (run s p)) o), snd (run s p) ++ snd (step (fst (run s p)) o)).
  Proof. rewrite run_app. cbn [Number_Model.run]. destruct (step (fst (run s p)) o) as [s1 e1]. cbn [fst snd]. rewrite app_nil_r. reflexivity. Qed.

  (** ** No number is used twice *)
  Definition In1 (i : nat) (s : node) (L : list (nat * nat)) : Prop :=
    sound_store s /\ NoDup L /\ (forall v n, In (v, n) L -> v <= aud s /\ am i v = true) /\
    exists r, get i (reps s) = Some r /\
      ((part s = false /\ view s = 0 /\ target s = None /\
        forall n, In (aud s, n) L -> audit s <> None /\ exists v m, disk i s = Some (v, m) /\ n <= m) \/
       ((prim r = None /\ aud s < view s \/ prim r = Some (am i (aud s)) /\ view s = aud s) /\
        (forall t, target s = Some t -> waiting r = true /\ (aud s < t -> disk i s = None) /\ (aud s = t -> forall n, ~ In (aud s, n) L)) /\
        ((forall n, In (aud s, n) L -> n <= last_pp r) \/ (aud s < fst (last_ord r) /\ disk i s = None) \/
         (waiting r = true /\ disk i s = None /\ exists t, target s = Some t /\ aud s < t)))).

  Lemma in1_init i : In i insts -> In1 i init [].
  Proof.
    intros Hi. unfold In1, init. split; [intros d E; discriminate|]. split; [constructor|]. split; [intros v n []|].
    cbn [reps]. rewrite get_map_reps, restore_reps_cases by exact Hi. cbn. eexists. split; [reflexivity|]. right. split; [right; split; reflexivity|].
    split; [discriminate|]. left. intros n [].
  Qed.

  (** steps that leave an instance as it is *)
  Lemma in1_same i s s' L : In1 i s L -> view s' = view s -> audit s' = audit s -> target s' = target s -> part s' = part s ->
    get i (reps s') = get i (reps s) -> disk i s' = disk i s -> sound_store s' -> In1 i s' L.
  Proof.
    intros (S1 & N & A & r & G & H) V Au T P Gr D S2. unfold In1, aud in *. rewrite V, Au, T, P, Gr, D.
    split; [exact S2|]. split; [exact N|]. split; [exact A|]. exists r. split; [exact G|exact H].
  Qed.

  Lemma can_send_spec s r : can_send mif s r = true -> prim r = Some true /\ part s = true /\ waiting r = false /\ fst (last_ord r) <= view s.
  Proof.
    unfold can_send. rewrite !andb_true_iff. intros ((((((P & Pa) & _) & W) & _) & F) & _).
    destruct (prim r) as [[|]|]; try discriminate. apply negb_true_iff in W, F. apply Nat.ltb_ge in F. auto.
  Qed.

  Lemma get_upd i j r s : get i (reps (upd j r s)) = if i =? j then Some r else get i (reps s).
  Proof. unfold upd. cbn [reps]. apply get_set. Qed.

  Lemma in1_step i s L o : In i insts -> In1 i s L -> sensible am s o -> o <> Remove i ->
    (o = Reboot -> forall n, In (aud s, n) L -> audit s <> None /\ exists v m, disk i s = Some (v, m) /\ n <= m) ->
    In1 i (fst (step s o)) (L ++ sent i (snd (step s o))).
  Proof.
    intros Hi H Sen NR RM.
    assert (forall e, sent i e = [] -> In1 i (fst (step s o)) L -> In1 i (fst (step s o)) (L ++ sent i e)) as Nil by (intros e -> X; rewrite app_nil_r; exact X).
    destruct o as [j|j n|j|j n|j n|j|v|v| | | |a].
    - (* Send *)
      cbn [Number_Model.step] in *. destruct (get j (reps s)) as [r|] eqn:G; [|apply Nil; [reflexivity|exact H]].
      destruct (can_send mif s r) eqn:C; [|apply Nil; [reflexivity|exact H]]. cbn [fst snd] in *.
      destruct (Nat.eq_dec j i) as [->|Nj].
      + pose proof H as (S1 & ND & A & r' & G' & K). rewrite G in G'. injection G' as <-.
        destruct (can_send_spec s r C) as (P & Pa & W & F).
        destruct K as [(X & _)|(V & K & N)]; [congruence|].
        destruct V as [(V & _)|(V & Ev)]; [congruence|]. rewrite P in V. injection V as Am.
        assert (forall n, In (aud s, n) L -> n <= last_pp r) as N1.
        { destruct N as [N|[(N & _)|(N & _)]]; [exact N|lia|congruence]. }
        assert (sent i [Sent i (view s) (S (last_pp r))] = [(view s, S (last_pp r))]) as -> by (cbn; rewrite Nat.eqb_refl; reflexivity).
        unfold In1. split; [apply sound_save; exact S1|]. split.
        { apply NoDup_app_snoc; [exact ND|]. rewrite Ev. intros X. specialize (N1 _ X). lia. }
        change (aud (save i (S (last_pp r)) (upd i (raise (S (last_pp r)) r) s))) with (aud s).
        split. { intros v n X. apply in_app_or in X. destruct X as [X|[X|[]]]; [exact (A v n X)|]. injection X as <- <-. rewrite Ev. split; [lia|congruence]. }
        exists (raise (S (last_pp r)) r). split; [change (get i (reps (upd i (raise (S (last_pp r)) r) s)) = Some (raise (S (last_pp r)) r)); rewrite get_upd, Nat.eqb_refl; reflexivity|].
        right. change (view (save i (S (last_pp r)) (upd i (raise (S (last_pp r)) r) s))) with (view s).
        change (target (save i (S (last_pp r)) (upd i (raise (S (last_pp r)) r) s))) with (target s).
        split; [right; cbn [raise prim]; rewrite P, Am; auto|]. split.
        { intros t Et. destruct (K t Et) as (X & _). congruence. }
        left. intros n X. cbn [raise last_pp]. apply in_app_or in X. destruct X as [X|[X|[]]]; [specialize (N1 n X); lia|]. injection X as _ <-. lia.
      + apply Nil; [cbn; apply Nat.eqb_neq in Nj; rewrite Nj; reflexivity|]. apply (in1_same i s); try reflexivity; [exact H|..].
        * change (get i (reps (upd j (raise (S (last_pp r)) r) s)) = get i (reps s)). rewrite get_upd. apply not_eq_sym, Nat.eqb_neq in Nj. rewrite Nj. reflexivity.
        * rewrite disk_save. apply not_eq_sym, Nat.eqb_neq in Nj. rewrite Nj. reflexivity.
        * apply sound_save. destruct H as (X & _). exact X.
    - (* Recv *)
      cbn [Number_Model.step] in *. destruct (get j (reps s)) as [r|] eqn:G; [|apply Nil; [reflexivity|exact H]].
      destruct (part s && negb (waiting r) && _) eqn:C; [|apply Nil; [reflexivity|exact H]]. apply Nil; [reflexivity|]. cbn [fst].
      destruct (Nat.eq_dec j i) as [->|Nj].
      + apply andb_true_iff in C. destruct C as [C P]. apply andb_true_iff in C. destruct C as [Pa W]. apply negb_true_iff in W.
        assert (prim r = Some false) as P' by (destruct (prim r) as [[|]|]; try discriminate; reflexivity). clear P.
        pose proof H as (S1 & ND & A & r' & G' & K). rewrite G in G'. injection G' as <-.
        destruct K as [(X & _)|(V & K & N)]; [congruence|]. destruct V as [(V & _)|(V & Ev)]; [congruence|]. rewrite P' in V. injection V as Am.
        split; [apply sound_save; exact S1|]. split; [exact ND|]. split; [exact A|].
        exists (raise n r). split; [change (get i (reps (upd i (raise n r) s)) = Some (raise n r)); rewrite get_upd, Nat.eqb_refl; reflexivity|].
        right. change (view (save i n (upd i (raise n r) s))) with (view s). change (aud (save i n (upd i (raise n r) s))) with (aud s).
        change (target (save i n (upd i (raise n r) s))) with (target s).
        split; [right; cbn [raise prim]; rewrite P', Am; auto|]. split.
        { intros t Et. destruct (K t Et) as (X & _). congruence. }
        left. intros m X. apply A in X. destruct X. congruence.
      + apply (in1_same i s); try reflexivity; [exact H|..].
        * change (get i (reps (upd j (raise n r) s)) = get i (reps s)). rewrite get_upd. apply not_eq_sym, Nat.eqb_neq in Nj. rewrite Nj. reflexivity.
        * rewrite disk_save. apply not_eq_sym, Nat.eqb_neq in Nj. rewrite Nj. reflexivity.
        * apply sound_save. destruct H as (X & _). exact X.
    - (* Order *)
      cbn [Number_Model.step] in *. destruct (get j (reps s)) as [r|] eqn:G; [|apply Nil; [reflexivity|exact H]].
      destruct (part s && negb (waiting r) && _ && _) eqn:C; [|apply Nil; [reflexivity|exact H]]. apply Nil; [reflexivity|]. cbn [fst].
      destruct (Nat.eq_dec j i) as [->|Nj].
      + apply andb_true_iff in C. destruct C as [C F]. apply andb_true_iff in C. destruct C as [C Le]. apply andb_true_iff in C. destruct C as [Pa W]. apply negb_true_iff in W.
        apply Nat.leb_le in F, Le.
        pose proof H as (S1 & ND & A & r' & G' & K). rewrite G in G'. injection G' as <-. destruct K as [(X & _)|(V & K & N)]; [congruence|].
        split; [exact S1|]. split; [exact ND|]. split; [exact A|]. eexists. split; [rewrite get_upd, Nat.eqb_refl; reflexivity|].
        right. split; [exact V|]. split; [intros t Et; destruct (K t Et) as (X & _); congruence|]. cbn [set_ordered last_pp last_ord fst snd].
        destruct N as [N|[(N & D)|(N & _)]]; [|right; left|congruence].
        * left. intros n X. specialize (N n X). lia.
        * split; [change (aud s < view s); lia|exact D].
      + apply (in1_same i s); try reflexivity; [exact H| |destruct H as (X & _); exact X].
        rewrite get_upd. apply not_eq_sym, Nat.eqb_neq in Nj. rewrite Nj. reflexivity.
    - (* Adjust *)
      cbn [Number_Model.step sensible] in *. destruct (get j (reps s)) as [r|] eqn:G; [|apply Nil; [reflexivity|exact H]].
      destruct (part s && negb (waiting r)) eqn:C; [|apply Nil; [reflexivity|exact H]]. apply Nil; [reflexivity|]. cbn [fst].
      destruct (Nat.eq_dec j i) as [->|Nj].
      + apply andb_true_iff in C. destruct C as [Pa W]. apply negb_true_iff in W.
        pose proof H as (S1 & ND & A & r' & G' & K). rewrite G in G'. injection G' as <-. destruct K as [(X & _)|(V & K & N)]; [congruence|].
        split; [exact S1|]. split; [exact ND|]. split; [exact A|]. eexists. split; [rewrite get_upd, Nat.eqb_refl; reflexivity|].
        right. split; [exact V|]. split; [intros t Et; destruct (K t Et) as (X & _); congruence|]. cbn [set_ordered last_pp last_ord fst snd].
        change (aud (upd i _ s)) with (aud s). change (disk i (upd i _ s)) with (disk i s).
        destruct V as [(_ & V)|(_ & V)].
        * destruct N as [N|[(N & D)|(N & _)]]; [|right; left|congruence]; [left; intros m X; specialize (N m X); lia|split; [exact V|exact D]].
        * left. intros m X. apply A in X. destruct X. congruence.
      + apply (in1_same i s); try reflexivity; [exact H| |destruct H as (X & _); exact X].
        rewrite get_upd. apply not_eq_sym, Nat.eqb_neq in Nj. rewrite Nj. reflexivity.
    - (* Setup *)
      cbn [Number_Model.step sensible] in *. destruct (get j (reps s)) as [r|] eqn:G; [|apply Nil; [reflexivity|exact H]].
      destruct (part s && negb (waiting r) && _) eqn:C; [|apply Nil; [reflexivity|exact H]]. apply Nil; [reflexivity|]. cbn [fst].
      destruct (Nat.eq_dec j i) as [->|Nj].
      + apply andb_true_iff in C. destruct C as [C _]. apply andb_true_iff in C. destruct C as [Pa W]. apply negb_true_iff in W.
        pose proof H as (S1 & ND & A & r' & G' & K). rewrite G in G'. injection G' as <-. destruct K as [(X & _)|(V & K & N)]; [congruence|].
        split; [exact S1|]. split; [exact ND|]. split; [exact A|]. eexists. split; [rewrite get_upd, Nat.eqb_refl; reflexivity|].
        right. split; [exact V|]. split; [intros t Et; destruct (K t Et) as (X & _); congruence|]. cbn [set_ordered last_pp last_ord fst snd].
        change (aud (upd i _ s)) with (aud s). change (disk i (upd i _ s)) with (disk i s).
        destruct V as [(_ & V)|(_ & V)].
        * destruct N as [N|[(N & D)|(N & _)]]; [|right; left|congruence]; [left; intros m X; specialize (N m X); lia|split; [exact V|exact D]].
        * left. intros m X. apply A in X. destruct X. congruence.
      + apply (in1_same i s); try reflexivity; [exact H| |destruct H as (X & _); exact X].
        rewrite get_upd. apply not_eq_sym, Nat.eqb_neq in Nj. rewrite Nj. reflexivity.
    - (* Remove *)
      apply Nil; [reflexivity|]. cbn [Number_Model.step fst]. apply (in1_same i s); try reflexivity; [exact H| |destruct H as (X & _); exact X].
      cbn [reps]. rewrite get_del. destruct (Nat.eqb_spec i j) as [<-|]; [congruence|reflexivity].
    - (* Commit *)
      cbn [Number_Model.step sensible] in *. destruct (part s) eqn:Pa; [|apply Nil; [reflexivity|exact H]]. apply Nil; [reflexivity|]. cbn [fst].
      destruct H as (S1 & ND & A & r & G & K). destruct K as [(X & _)|(V & K & N)]; [congruence|].
      split; [exact S1|]. split; [exact ND|]. change (aud (mkNode _ _ (Some v) _ _ _ _)) with v.
      split. { intros w n X. destruct (A w n X). split; [lia|assumption]. }
      assert (v = aud s \/ forall n, ~ In (v, n) L) as D.
      { destruct (Nat.eq_dec v (aud s)) as [->|Nv]; [left; reflexivity|right]. intros n X. apply A in X. lia. }
      set (r' := if v =? view s then (let r := select am (view s) i r in mkRep (prim r) (waiting r) true (last_pp r) (last_ord r)) else r).
      exists r'. split.
      { cbn [reps]. unfold r'. destruct (v =? view s); [|exact G]. rewrite get_map_reps, G. reflexivity. }
      assert (waiting r' = waiting r /\ last_pp r' = last_pp r /\ last_ord r' = last_ord r) as (Ew & El & Eo).
      { unfold r', select. destruct (v =? view s); [|auto]. destruct (prim r); auto. }
      right. cbn [view target]. split; [|split].
      + unfold r', select. destruct (Nat.eqb_spec v (view s)) as [->|Nv].
        * right. split; [|reflexivity]. destruct V as [(V & Lt)|(V & Ev)]; rewrite V; cbn [prim]; [reflexivity|]. congruence.
        * destruct V as [(V & Lt)|(V & Ev)]; [left; split; [exact V|lia]|lia].
      + intros t Et. rewrite Ew. destruct (K t Et) as (K1 & K2 & K3). split; [exact K1|]. split.
        * intros Lt. apply K2. lia.
        * intros <-. destruct D as [->|D]; [apply K3; reflexivity|exact D].
      + rewrite Ew, El, Eo. destruct D as [->|D]; [exact N|]. left. intros n X. destruct (D n X).
    - (* StartVC *)
      apply Nil; [reflexivity|]. cbn [Number_Model.step fst sensible] in *. destruct H as (S1 & ND & A & r & G & K).
      split; [intros d E; discriminate|]. split; [exact ND|]. split; [exact A|].
      eexists. split. { cbn [reps]. rewrite get_map_reps, (restore_reps_keep i _ r G). reflexivity. }
      right. cbn [prim waiting view target]. change (aud (mkNode v (prev s) (audit s) None _ _ _)) with (aud s).
      split; [left; split; [reflexivity|lia]|]. split.
      + intros t Et. injection Et as <-. split; [reflexivity|]. split; [intros _; reflexivity|lia].
      + right. right. split; [reflexivity|]. split; [reflexivity|]. exists v. split; [reflexivity|lia].
    - (* NewView *)
      apply Nil; [reflexivity|]. cbn [Number_Model.step fst sensible] in *. destruct H as (S1 & ND & A & r & G & K). destruct K as [(_ & _ & X & _)|(V & K & N)]; [congruence|].
      split; [exact S1|]. split; [exact ND|]. split; [exact A|]. eexists. split. { cbn [reps]. rewrite get_map_reps, G. reflexivity. }
      right. cbn [prim waiting view target last_pp last_ord fst]. split; [exact V|]. split; [discriminate|].
      destruct (K (view s) Sen) as (_ & K2 & K3). change (aud (mkNode (view s) (prev s) (audit s) (store s) _ _ _)) with (aud s).
      destruct V as [(_ & V)|(_ & V)]; [right; left; split; [exact V|exact (K2 V)]|]. left. intros n X. destruct (K3 (eq_sym V) n X).
    - (* Reboot *)
      apply Nil; [reflexivity|]. cbn [Number_Model.step fst] in *. destruct H as (S1 & ND & A & r & G & K).
      split; [exact S1|]. split; [exact ND|]. split; [exact A|]. cbn [reps]. rewrite get_map_reps, restore_reps_cases by exact Hi. cbn [get option_map].
      eexists. split; [reflexivity|]. left. repeat split; apply (RM eq_refl n H).
    - (* StartCatchup *)
      apply Nil; [reflexivity|]. cbn [Number_Model.step fst] in *. destruct H as (S1 & ND & A & r & G & K).
      split; [exact S1|]. split; [exact ND|]. split; [exact A|]. exists r. split; [exact G|].
      destruct K as [(X1 & X2 & X3 & X4)|K]; [left|right; exact K]. repeat split; try assumption; apply (X4 n H).
    - (* Catchup *)
      assert (sent i (snd (step s (Catchup a))) = []) as Z by reflexivity. rewrite Z, app_nil_r. clear Z Nil.
      destruct H as (S1 & ND & A & r & G & K).
      destruct (catchup_frame s a) as (Fv & Fa & Ft & Fp & Fs).
      destruct (catchup_rep i s a Hi S1) as (r2 & G2 & P2 & W2 & C). rewrite G in W2, C. cbv zeta in C.
      set (s' := fst (step s (Catchup a))) in *.
      assert (sound_store s') as S2 by (intros d E; destruct Fs as [Fs|Fs]; [apply S1; congruence|congruence]).
      assert (aud s <= aud s') as Le.
      { unfold aud. rewrite Fa. unfold audit_after. destruct a as [a|]; [cbn in Sen; exact Sen|lia]. }
      assert (view s' = aud s') as Ev.
      { rewrite Fv. unfold aud. rewrite Fa. unfold view_after, audit_after. destruct a as [a|]; [reflexivity|]. cbn [sensible] in Sen. destruct (audit s); [reflexivity|apply Sen; reflexivity]. }
      rewrite <- Fv, Ev in P2.
      assert (disk i s = None -> disk i s' = None) as Dn.
      { intros X. destruct Fs as [Fs|Fs]; unfold disk in *; rewrite Fs; [exact X|reflexivity]. }
      split; [exact S2|]. split; [exact ND|]. split; [intros v n X; destruct (A v n X); split; [lia|assumption]|].
      exists r2. split; [exact G2|]. right. split; [right; split; [exact P2|exact Ev]|].
      assert (aud s' = aud s \/ forall n, ~ In (aud s', n) L) as D.
      { destruct (Nat.eq_dec (aud s') (aud s)) as [E|Nv]; [left; exact E|right]. intros n X. apply A in X. lia. }
      rewrite Ft. split.
      + intros t Et. destruct K as [(_ & _ & X & _)|(V & K & N)]; [congruence|]. destruct (K t Et) as (K1 & K2 & K3). rewrite W2. split; [exact K1|]. split.
        * intros Lt. apply Dn, K2. lia.
        * intros E. destruct D as [D|D]; [|exact D]. rewrite D in E |- *. exact (K3 E).
      + destruct D as [D|D]; [|left; intros n X; destruct (D n X)]. rewrite D.
        destruct K as [(Pf & Vz & Tn & R)|(V & K & N)].
        * left. intros n X. destruct (R n X) as (An & v & m & Dm & Lm).
          destruct C as [(_ & _ & _ & [C|[C|C]])|(v' & m' & Dm' & El & _)]; [congruence|congruence| |].
          -- unfold audit_after in C. destruct a; [discriminate|congruence].
          -- rewrite Dm in Dm'. injection Dm' as <- <-. lia.
        * destruct C as [(El & Eo & _)|(v' & m' & Dm' & El & _)].
          -- rewrite El, Eo, W2. destruct N as [N|[(N & Dk)|(N & Dk & t & Et & Lt)]]; [left; exact N|right; left; split; [exact N|exact (Dn Dk)]|].
             right; right. split; [exact N|]. split; [exact (Dn Dk)|]. exists t. auto.
          -- destruct N as [N|[(_ & Dk)|(_ & Dk & _)]]; [|congruence|congruence]. left. intros n X. specialize (N n X). lia.
  Qed.

  Lemma throughout_prefix p q P : throughout insts am mif (p ++ q) P -> throughout insts am mif p P.
  Proof. intros H a o b E. apply (H a o (b ++ q)). rewrite E, <- app_assoc. reflexivity. Qed.
  Theorem no_reuse i os : In i insts ->
    throughout insts am mif os (fun s es o => sensible am s o /\ o <> Remove i /\ (o = Reboot -> remembered i s es)) ->
    In1 i (fst (run init os)) (sent i (snd (run init os))).
  Proof.
    intros Hi. induction os as [|o os IH] using rev_ind; intros H; [apply in1_init; exact Hi|].
    specialize (IH (throughout_prefix _ _ _ H)). destruct (H os o [] eq_refl) as (Sen & NR & RM). rewrite run_snoc. cbn [fst snd]. rewrite sent_app.
    apply in1_step; [exact Hi|exact IH|exact Sen|exact NR|]. intros E n X. destruct (RM E n X) as (An & d & v & m & Es & Gd & Lm). split; [exact An|].
    exists v, m. unfold disk. rewrite Es. auto.
  Qed.

  (** ** No number is left out *)
  Definition gapless (L : list (nat * nat)) : Prop :=
    forall l1 v n l2, L = l1 ++ (v, n) :: l2 -> forall k, 1 <= k < n -> In (v, k) l1.
  Definition In2 (i : nat) (s : node) (L : list (nat * nat)) : Prop :=
    sound_store s /\ gapless L /\
    (forall v m, disk i s = Some (v, m) -> am i v = true -> forall k, 1 <= k <= m -> In (v, k) L) /\
    (forall r, get i (reps s) = Some r ->
      (forall p, prim r = Some p -> p = am i (view s)) /\
      (waiting r = false -> am i (view s) = true -> forall k, 1 <= k <= last_pp r -> In (view s, k) L)).

  Lemma gapless_snoc L v n : gapless L -> (forall k, 1 <= k < n -> In (v, k) L) -> gapless (L ++ [(v, n)]).
  Proof.
    intros H K l1 v' n' l2 E k Hk. destruct l2 as [|y l2] using rev_ind.
    - apply app_inj_tail in E. destruct E as [<- E]. injection E as <- <-. apply K. exact Hk.
    - clear IHl2. rewrite app_comm_cons, app_assoc in E. apply app_inj_tail in E. destruct E as [E _]. exact (H l1 v' n' l2 E k Hk).
  Qed.
  Lemma in2_same i s s' L : In2 i s L -> view s' = view s ->
    get i (reps s') = get i (reps s) -> disk i s' = disk i s -> sound_store s' -> In2 i s' L.
  Proof. intros (S1 & N & A & H) V Gr D S2. unfold In2. rewrite V, Gr, D. split; [exact S2|]. split; [exact N|]. split; [exact A|exact H]. Qed.
  Lemma in2_init i : In i insts -> In2 i init [].
  Proof.
    intros Hi. split; [intros d E; discriminate|]. split; [intros l1 v n l2 E; destruct l1; discriminate|]. split; [discriminate|].
    intros r. unfold Number_Model.init. cbn [reps view]. rewrite get_map_reps, restore_reps_cases by exact Hi. cbn. intros E. injection E as <-. cbn.
    split; [intros p E; congruence|]. intros _ _ k Hk. lia.
  Qed.
  Lemma in2_step i s L o : In i insts -> In2 i s L -> sensible am s o -> steady i s o ->
    In2 i (fst (step s o)) (L ++ sent i (snd (step s o))).
  Proof.
    intros Hi H Sen St.
    assert (forall e, sent i e = [] -> In2 i (fst (step s o)) L -> In2 i (fst (step s o)) (L ++ sent i e)) as Nil by (intros e -> X; rewrite app_nil_r; exact X).
    assert (forall j r, j <> i -> In2 i (upd j r s) L) as Other.
    { intros j r Nj. apply (in2_same i s); try reflexivity; [exact H| |destruct H as (X & _); exact X].
      rewrite get_upd. apply not_eq_sym, Nat.eqb_neq in Nj. rewrite Nj. reflexivity. }
    assert (forall j n r, j <> i -> In2 i (save j n (upd j r s)) L) as Other2.
    { intros j n r Nj. apply (in2_same i (upd j r s)); try reflexivity; [apply Other; exact Nj| |apply sound_save; destruct H as (X & _); exact X].
      rewrite disk_save. apply not_eq_sym, Nat.eqb_neq in Nj. rewrite Nj. reflexivity. }
    assert (forall r r', get i (reps s) = Some r -> prim r' = prim r -> am i (view s) = false -> In2 i (upd i r' s) L) as Foreign.
    { intros r r' G P Am. destruct H as (S1 & Gp & D & K). split; [exact S1|]. split; [exact Gp|]. split; [exact D|].
      intros r2 G2. rewrite get_upd, Nat.eqb_refl in G2. injection G2 as <-. destruct (K r G) as (K1 & _). split; [rewrite P; exact K1|].
      change (view (upd i r' s)) with (view s). intros _ X. congruence. }
    destruct o as [j|j n|j|j n|j n|j|v|v| | | |a].
    - (* Send *)
      cbn [Number_Model.step] in *. destruct (get j (reps s)) as [r|] eqn:G; [|apply Nil; [reflexivity|exact H]].
      destruct (can_send mif s r) eqn:C; [|apply Nil; [reflexivity|exact H]]. cbn [fst snd] in *.
      destruct (Nat.eq_dec j i) as [->|Nj]; [|apply Nil; [cbn; apply Nat.eqb_neq in Nj; rewrite Nj; reflexivity|]; apply Other2; exact Nj].
      destruct (can_send_spec s r C) as (P & _ & W & _). pose proof H as (S1 & Gp & D & K). destruct (K r G) as (K1 & K2).
      specialize (K1 true P). specialize (K2 W (eq_sym K1)).
      assert (sent i [Sent i (view s) (S (last_pp r))] = [(view s, S (last_pp r))]) as -> by (cbn; rewrite Nat.eqb_refl; reflexivity).
      assert (forall k, 1 <= k <= S (last_pp r) -> In (view s, k) (L ++ [(view s, S (last_pp r))])) as K3.
      { intros k Hk. apply in_or_app. destruct (Nat.eq_dec k (S (last_pp r))) as [->|]; [right; left; reflexivity|]. left. apply K2. lia. }
      split; [apply sound_save; exact S1|]. split; [apply gapless_snoc; [exact Gp|]; intros k Hk; apply K2; lia|]. split.
      + intros v m. rewrite disk_save, Nat.eqb_refl. intros E. injection E as <- <-. intros _. exact K3.
      + intros r2. change (reps (save i (S (last_pp r)) (upd i (raise (S (last_pp r)) r) s))) with (reps (upd i (raise (S (last_pp r)) r) s)).
        rewrite get_upd, Nat.eqb_refl. intros E. injection E as <-. split; [intros p Ep; destruct (K r G) as (X & _); apply X; exact Ep|].
        intros _ _ k Hk. cbn [raise last_pp] in Hk. apply K3. lia.
    - (* Recv *)
      cbn [Number_Model.step] in *. destruct (get j (reps s)) as [r|] eqn:G; [|apply Nil; [reflexivity|exact H]].
      destruct (part s && negb (waiting r) && _) eqn:C; [|apply Nil; [reflexivity|exact H]]. apply Nil; [reflexivity|]. cbn [fst].
      destruct (Nat.eq_dec j i) as [->|Nj]; [|apply Other2; exact Nj].
      apply andb_true_iff in C. destruct C as [_ P]. assert (prim r = Some false) as P' by (destruct (prim r) as [[|]|]; try discriminate; reflexivity). clear P.
      pose proof H as (S1 & Gp & D & K). destruct (K r G) as (K1 & _). specialize (K1 false P').
      destruct (Foreign r (raise n r) G eq_refl (eq_sym K1)) as (F1 & F2 & F3 & F4).
      split; [apply sound_save; exact S1|]. split; [exact Gp|]. split; [|exact F4].
      intros v m. rewrite disk_save, Nat.eqb_refl. intros E. injection E as <- <-. intros X. change (view (upd i (raise n r) s)) with (view s) in X. congruence.
    - (* Order *)
      cbn [Number_Model.step] in *. destruct (get j (reps s)) as [r|] eqn:G; [|apply Nil; [reflexivity|exact H]].
      destruct (part s && negb (waiting r) && _ && _) eqn:C; [|apply Nil; [reflexivity|exact H]]. apply Nil; [reflexivity|]. cbn [fst].
      destruct (Nat.eq_dec j i) as [->|Nj]; [|apply Other; exact Nj].
      apply andb_true_iff in C. destruct C as [C _]. apply andb_true_iff in C. destruct C as [C Le]. apply Nat.leb_le in Le.
      destruct H as (S1 & Gp & D & K). destruct (K r G) as (K1 & K2). split; [exact S1|]. split; [exact Gp|]. split; [exact D|].
      intros r2. rewrite get_upd, Nat.eqb_refl. intros E. injection E as <-. split; [exact K1|]. cbn [set_ordered waiting last_pp snd]. intros W A k Hk. apply (K2 W A). lia.
    - (* Adjust *)
      cbn [Number_Model.step sensible] in *. destruct (get j (reps s)) as [r|] eqn:G; [|apply Nil; [reflexivity|exact H]].
      destruct (part s && negb (waiting r)) eqn:C; [|apply Nil; [reflexivity|exact H]]. apply Nil; [reflexivity|]. cbn [fst].
      destruct (Nat.eq_dec j i) as [->|Nj]; [|apply Other; exact Nj]. apply (Foreign r); [exact G|reflexivity|exact Sen].
    - (* Setup *)
      cbn [Number_Model.step sensible] in *. destruct (get j (reps s)) as [r|] eqn:G; [|apply Nil; [reflexivity|exact H]].
      destruct (part s && negb (waiting r) && _) eqn:C; [|apply Nil; [reflexivity|exact H]]. apply Nil; [reflexivity|]. cbn [fst].
      destruct (Nat.eq_dec j i) as [->|Nj]; [|apply Other; exact Nj]. apply (Foreign r); [exact G|reflexivity|exact Sen].
    - (* Remove *)
      apply Nil; [reflexivity|]. cbn [Number_Model.step fst]. destruct H as (S1 & Gp & D & K). split; [exact S1|]. split; [exact Gp|]. split; [exact D|].
      cbn [reps view]. intros r. rewrite get_del. destruct (i =? j); [discriminate|]. apply K.
    - (* Commit *)
      cbn [Number_Model.step] in *. destruct (part s) eqn:Pa; [|apply Nil; [reflexivity|exact H]]. apply Nil; [reflexivity|]. cbn [fst].
      destruct H as (S1 & Gp & D & K). split; [exact S1|]. split; [exact Gp|]. split; [exact D|]. cbn [reps view]. intros r'.
      destruct (v =? view s); [|apply K]. rewrite get_map_reps. destruct (get i (reps s)) as [r|] eqn:G; [|discriminate]. cbn [option_map]. intros E. injection E as <-.
      destruct (K r eq_refl) as (K1 & K2). unfold select. destruct (prim r) as [p|] eqn:P; cbn [prim waiting last_pp]; split; try exact K2.
      + rewrite P. intros p' E. injection E as <-. apply K1. reflexivity.
      + intros p' E. congruence.
    - (* StartVC *)
      apply Nil; [reflexivity|]. cbn [Number_Model.step fst] in *. destruct H as (S1 & Gp & D & K).
      split; [intros d E; discriminate|]. split; [exact Gp|]. split; [discriminate|]. cbn [reps view]. intros r'. rewrite get_map_reps.
      destruct (get i (restore_reps insts (reps s))); [|discriminate]. cbn [option_map]. intros E. injection E as <-. cbn [prim waiting]. split; intros; discriminate.
    - (* NewView *)
      apply Nil; [reflexivity|]. cbn [Number_Model.step fst] in *. destruct H as (S1 & Gp & D & K).
      split; [exact S1|]. split; [exact Gp|]. split; [exact D|]. cbn [reps view]. intros r'. rewrite get_map_reps.
      destruct (get i (reps s)) as [r|] eqn:G; [|discriminate]. cbn [option_map]. intros E. injection E as <-. cbn [prim waiting last_pp].
      split; [apply (K r eq_refl)|]. intros _ _ k Hk. lia.
    - (* Reboot *)
      apply Nil; [reflexivity|]. cbn [Number_Model.step fst] in *. destruct H as (S1 & Gp & D & K).
      split; [exact S1|]. split; [exact Gp|]. split; [exact D|]. cbn [reps view]. intros r'. rewrite get_map_reps, restore_reps_cases by exact Hi. cbn.
      intros E. injection E as <-. cbn. split; [intros p E; congruence|]. intros _ _ k Hk. lia.
    - (* StartCatchup *)
      apply Nil; [reflexivity|]. exact H.
    - (* Catchup *)
      assert (sent i (snd (step s (Catchup a))) = []) as Z by reflexivity. rewrite Z, app_nil_r. clear Z Nil.
      destruct H as (S1 & Gp & D & K). destruct (catchup_frame s a) as (Fv & Fa & Ft & Fp & Fs).
      destruct (catchup_rep i s a Hi S1) as (r2 & G2 & P2 & W2 & C). cbv zeta in C. cbn [steady] in St. destruct St as (St1 & St2).
      set (s' := fst (step s (Catchup a))) in *.
      assert (sound_store s') as S2 by (intros d E; destruct Fs as [Fs|Fs]; [apply S1; congruence|congruence]).
      split; [exact S2|]. split; [exact Gp|].
      assert (forall v m, disk i s' = Some (v, m) -> disk i s = Some (v, m)) as Dk.
      { intros v m. destruct Fs as [Fs|Fs]; unfold disk; rewrite Fs; [auto|discriminate]. }
      split; [intros v m E; apply D, Dk, E|]. intros r G. rewrite G2 in G. injection G as <-. rewrite Fv. split; [intros p E; congruence|].
      intros W Am k Hk. rewrite W2 in W.
      assert (forall r0, match get i (reps s) with Some r => r | None => fresh end = r0 -> k <= last_pp r0 -> In (view_after s a, k) L) as Old.
      { intros r0 E Lk. destruct (get i (reps s)) as [r|] eqn:G; [|subst r0; cbn in Lk; lia]. subst r0. destruct (K r eq_refl) as (_ & K2).
        destruct St1 as [St1|St1]; [|specialize (St1 r eq_refl); lia]. rewrite St1 in Am |- *. apply (K2 W Am). lia. }
      destruct C as [(El & _)|(v & m & Dm & El & _)]; [rewrite El in Hk; apply (Old _ eq_refl); lia|].
      rewrite El in Hk. destruct (Nat.le_gt_cases k (last_pp (match get i (reps s) with Some r => r | None => fresh end))) as [Lk|Lk]; [apply (Old _ eq_refl); lia|].
      assert (v = view_after s a) as Ev. { unfold disk in Dm. destruct (store s) as [d|] eqn:Es; [|discriminate]. exact (St2 d v m eq_refl Dm). }
      subst v. apply (D _ m Dm Am). lia.
  Qed.
  Theorem no_gap i os : In i insts ->
    throughout insts am mif os (fun s es o => sensible am s o /\ steady i s o) ->
    In2 i (fst (run init os)) (sent i (snd (run init os))).
  Proof.
    intros Hi. induction os as [|o os IH] using rev_ind; intros H; [apply in2_init; exact Hi|].
    specialize (IH (throughout_prefix _ _ _ H)). destruct (H os o [] eq_refl) as (Sen & St). rewrite run_snoc. cbn [fst snd]. rewrite sent_app.
    apply in2_step; [exact Hi|exact IH|exact Sen|exact St].
  Qed.

  (** ** What is on disk stays until a view change, a catch-up or a restart *)
  Definition ordinary (o : op) : bool :=
    match o with Send _ | Recv _ _ | Order _ | Adjust _ _ | Setup _ _ | Commit _ | StartCatchup => true | _ => false end.
  Lemma stored_step i s r v m o : ordinary o = true -> get i (reps s) = Some r -> prim r = Some true -> disk i s = Some (v, m) -> m <= last_pp r ->
    exists r' v' m', get i (reps (fst (step s o))) = Some r' /\ prim r' = Some true /\ disk i (fst (step s o)) = Some (v', m') /\ m <= m' /\ m' <= last_pp r'.
  Proof.
    intros O G P D Le.
    assert (exists r' v' m', get i (reps s) = Some r' /\ prim r' = Some true /\ disk i s = Some (v', m') /\ m <= m' /\ m' <= last_pp r') as Same by (exists r, v, m; auto).
    destruct o as [j|j n|j|j n|j n|j|w|w| | | |a]; try discriminate; cbn [Number_Model.step].
    - destruct (get j (reps s)) as [rj|] eqn:Gj; [|exact Same]. destruct (can_send mif s rj); [|exact Same]. cbn [fst]. rewrite disk_save.
      change (reps (save j (S (last_pp rj)) (upd j (raise (S (last_pp rj)) rj) s))) with (reps (upd j (raise (S (last_pp rj)) rj) s)). rewrite get_upd.
      destruct (Nat.eqb_spec i j) as [<-|].
      + rewrite G in Gj. injection Gj as <-. exists (raise (S (last_pp r)) r), (view s), (S (last_pp r)). cbn [raise last_pp]. repeat split; [exact P|lia|lia].
      + exists r, v, m. auto.
    - destruct (get j (reps s)) as [rj|] eqn:Gj; [|exact Same]. destruct (part s && negb (waiting rj) && _) eqn:C; [|exact Same]. cbn [fst]. rewrite disk_save.
      change (reps (save j n (upd j (raise n rj) s))) with (reps (upd j (raise n rj) s)). rewrite get_upd.
      destruct (Nat.eqb_spec i j) as [<-|]; [|exists r, v, m; auto]. rewrite G in Gj. injection Gj as <-. rewrite P, andb_false_r in C. discriminate.
    - destruct (get j (reps s)) as [rj|] eqn:Gj; [|exact Same]. destruct (part s && negb (waiting rj) && _ && _) eqn:C; [|exact Same]. cbn [fst]. rewrite get_upd.
      destruct (Nat.eqb_spec i j) as [<-|]; [|exists r, v, m; auto]. rewrite G in Gj. injection Gj as <-. eexists _, v, m. repeat split; [exact P|exact D|lia|cbn; lia].
    - destruct (get j (reps s)) as [rj|] eqn:Gj; [|exact Same]. destruct (part s && negb (waiting rj)) eqn:C; [|exact Same]. cbn [fst]. rewrite get_upd.
      destruct (Nat.eqb_spec i j) as [<-|]; [|exists r, v, m; auto]. rewrite G in Gj. injection Gj as <-. eexists _, v, m. repeat split; [exact P|exact D|lia|cbn; lia].
    - destruct (get j (reps s)) as [rj|] eqn:Gj; [|exact Same]. destruct (part s && negb (waiting rj) && _) eqn:C; [|exact Same]. cbn [fst]. rewrite get_upd.
      destruct (Nat.eqb_spec i j) as [<-|]; [|exists r, v, m; auto]. rewrite G in Gj. injection Gj as <-. rewrite P, andb_false_r in C. discriminate.
    - destruct (part s); [|exact Same]. cbn [fst reps]. destruct (w =? view s); [|exact Same]. rewrite get_map_reps, G. cbn [option_map].
      eexists _, v, m. split; [reflexivity|]. unfold select. rewrite P. cbn [prim last_pp]. auto.
    - exact Same.
  Qed.
  Lemma stored_run i os s r v m : forallb ordinary os = true -> get i (reps s) = Some r -> prim r = Some true -> disk i s = Some (v, m) -> m <= last_pp r ->
    exists v' m', disk i (fst (run s os)) = Some (v', m') /\ m <= m'.
  Proof.
    revert s r v m. induction os as [|o os IH]; intros s r v m O G P D Le; cbn [Number_Model.run].
    - exists v, m. auto.
    - cbn [forallb] in O. apply andb_true_iff in O. destruct O as [O Os]. destruct (stored_step i s r v m o O G P D Le) as (r' & v' & m' & G' & P' & D' & L1 & L2).
      destruct (step s o) as [s1 e1]. cbn [fst] in *. destruct (IH s1 r' v' m' Os G' P' D' L2) as (v2 & m2 & D2 & L3). destruct (run s1 os) as [s2 e2]. cbn [fst] in *. exists v2, m2. split; [exact D2|lia].
  Qed.
  (** last_ordered_3pc is never ahead of lastPrePrepareSeqNo *)
  Definition ahead_ok (rs : dict rep) : Prop := forall i r, get i rs = Some r -> snd (last_ord r) <= last_pp r.
  Lemma ahead_map f rs : (forall i r, snd (last_ord r) <= last_pp r -> snd (last_ord (f i r)) <= last_pp (f i r)) -> ahead_ok rs -> ahead_ok (map_reps f rs).
  Proof. intros F A i r G. rewrite get_map_reps in G. destruct (get i rs) as [r0|] eqn:E; [|discriminate]. injection G as <-. apply F. exact (A i r0 E). Qed.
  Lemma ahead_set i r rs : snd (last_ord r) <= last_pp r -> ahead_ok rs -> ahead_ok (set i r rs).
  Proof. intros F A j q G. rewrite get_set in G. destruct (j =? i); [injection G as <-; exact F|exact (A j q G)]. Qed.
  Lemma ahead_restore_reps l : forall rs, ahead_ok rs ->
    ahead_ok (fold_left (fun rs i => match get i rs with Some _ => rs | None => set i fresh rs end) l rs).
  Proof. induction l as [|x l IH]; intros rs A; [exact A|]. cbn [fold_left]. apply IH. destruct (get x rs); [exact A|]. apply ahead_set; [apply Nat.le_refl|exact A]. Qed.
  Lemma ahead_restore d : forall rs, ahead_ok rs -> ahead_ok (snd (restore d rs)).
  Proof.
    induction d as [|[i [v n]] d IH]; intros rs A; [exact A|]. cbn [restore]. destruct (get i rs) as [r|] eqn:G; [|exact (IH rs A)].
    destruct (prim r); [|exact (IH rs A)]. cbn [snd]. apply IH. apply ahead_set; [|exact A]. cbn. lia.
  Qed.
  Lemma ahead_select v i r : snd (last_ord r) <= last_pp r -> snd (last_ord (select am v i r)) <= last_pp (select am v i r).
  Proof. intros A. unfold select. destruct (prim r); exact A. Qed.
  Lemma ahead_step s o : ahead_ok (reps s) -> ahead_ok (reps (fst (step s o))).
  Proof.
    intros A. destruct o as [i|i n|i|i n|i n|i|v|v| | | |a]; cbn [step].
    - destruct (get i (reps s)) as [r|] eqn:G; [|exact A]. destruct (can_send mif s r); [|exact A].
      unfold save, upd, raise. cbn [fst reps]. apply ahead_set; [|exact A]. cbn [last_pp last_ord]. pose proof (A i r G). lia.
    - destruct (get i (reps s)) as [r|] eqn:G; [|exact A]. match goal with |- context [if ?b then _ else _] => destruct b end; [|exact A].
      unfold save, upd, raise. cbn [fst reps]. apply ahead_set; [|exact A]. cbn [last_pp last_ord]. pose proof (A i r G). lia.
    - destruct (get i (reps s)) as [r|] eqn:G; [|exact A]. match goal with |- context [if ?b then _ else _] => destruct b end; [|exact A].
      unfold upd, set_ordered. cbn [fst reps]. apply ahead_set; [|exact A]. cbn [last_pp last_ord snd]. lia.
    - destruct (get i (reps s)) as [r|] eqn:G; [|exact A]. match goal with |- context [if ?b then _ else _] => destruct b end; [|exact A].
      unfold upd, set_ordered. cbn [fst reps]. apply ahead_set; [|exact A]. cbn [last_pp last_ord snd]. lia.
    - destruct (get i (reps s)) as [r|] eqn:G; [|exact A]. match goal with |- context [if ?b then _ else _] => destruct b end; [|exact A].
      unfold upd, set_ordered. cbn [fst reps]. apply ahead_set; [|exact A]. cbn [last_pp last_ord snd]. lia.
    - cbn [fst reps]. intros j r G. rewrite get_del in G. destruct (j =? i); [discriminate|exact (A j r G)].
    - destruct (part s); [|exact A]. cbn [fst reps]. destruct (v =? view s); [|exact A]. apply ahead_map; [|exact A].
      intros i r L. cbn [last_pp last_ord]. apply ahead_select. exact L.
    - cbn [fst reps]. apply ahead_map; [intros i r L; exact L|]. unfold restore_reps. apply ahead_restore_reps. exact A.
    - cbn [fst reps]. apply ahead_map; [|exact A]. intros i r L. cbn. lia.
    - cbn [fst reps]. apply ahead_map; [intros i r L; apply ahead_select; exact L|]. unfold restore_reps. apply ahead_restore_reps. intros i r G. discriminate.
    - exact A.
    - cbn [fst]. unfold on_catchup.
      assert (ahead_ok (restore_reps insts (reps s))) as A1 by (apply ahead_restore_reps; exact A).
      set (v' := match (match a with Some _ => a | None => audit s end) with Some a0 => a0 | None => view s end).
      assert (ahead_ok (map_reps (select am v') (map_reps (fun _ r => mkRep None (waiting r) (reordered r) (last_pp r) (last_ord r)) (restore_reps insts (reps s))))) as A2.
      { apply ahead_map; [intros i r L; apply ahead_select; exact L|]. apply ahead_map; [intros i r L; exact L|exact A1]. }
      revert A2. generalize (map_reps (select am v') (map_reps (fun _ r => mkRep None (waiting r) (reordered r) (last_pp r) (last_ord r)) (restore_reps insts (reps s)))). intros rs A2.
      match goal with |- context [let '(_, _) := ?x in _] => assert (ahead_ok (snd x)) as A3; [|destruct x as [b rs']] end.
      { destruct (match (match a with Some _ => a | None => audit s end) with Some _ => Some (view s) | None => prev s end) as [[|n]|]; try exact A2.
        destruct (store s); [|exact A2]. apply ahead_restore. exact A2. }
      cbn [reps snd] in *. apply ahead_map; [intros i r L; exact L|exact A3].
  Qed.
  Theorem never_ahead os : ahead_ok (reps (fst (run init os))).
  Proof.
    assert (forall os s, ahead_ok (reps s) -> ahead_ok (reps (fst (run s os)))) as K.
    { clear os. induction os as [|o os IH]; intros s A; [exact A|]. cbn [run Number_Model.run].
      pose proof (ahead_step s o A) as B. destruct (step s o) as [s1 e1]. cbn [fst] in B. specialize (IH s1 B). destruct (run s1 os) as [s2 e2]. exact IH. }
    apply K. unfold init, Number_Model.init. cbn [reps]. apply ahead_map; [intros i r L; apply ahead_select; exact L|]. apply ahead_restore_reps. intros i r G. discriminate.
  Qed.
End N.
