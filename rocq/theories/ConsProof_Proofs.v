(** Proofs about ConsProof_Model.v. *)
From Coq Require Import List Arith Bool Lia Permutation.
From Verif Require Import Base Dict Quorum_Model CatchupReq_Model Catchup_Model Seeder_Model ConsProof_Model ConsProof_Spec.
Import ListNotations.

(** ** Counting *)
Section Counting.
  Context {V : Type}.
  Definition holding (P : V -> bool) (d : dict V) : list (nat * V) := filter (fun x => P (snd x)) d.
  Lemma holding_at_least (P : V -> bool) (d : dict V) k : NoDup (map fst d) ->
    k <= length (holding P d) <-> at_least k (fun m => exists v, get m d = Some v /\ P v = true).
  Proof.
    intros ND. split.
    - intros L. exists (map fst (holding P d)). split; [apply nodup_filter; exact ND|]. split; [rewrite map_length; exact L|].
      intros m J. apply in_map_iff in J as ((m', v) & <- & J). apply filter_In in J as (J & E). exists v. split; [|exact E].
      apply in_get; assumption.
    - intros (l & N & L & A). etransitivity; [exact L|]. rewrite <- (map_length fst (holding P d)). apply NoDup_incl_length; [exact N|].
      intros m J. destruct (A m J) as (v & G & E). apply in_map_iff. exists (m, v). split; [reflexivity|].
      apply filter_In. split; [apply get_in; exact G|exact E].
  Qed.
End Counting.

Lemma at_least_iff k (P Q : nat -> Prop) : (forall m, P m <-> Q m) -> at_least k P <-> at_least k Q.
Proof.
  intros E. split; intros (l & N & L & A); exists l; split; try exact N; split; try exact L; intros m J; apply E, A, J.
Qed.
Lemma at_least_weaken k (P Q : nat -> Prop) : (forall m, P m -> Q m) -> at_least k P -> at_least k Q.
Proof. intros E (l & N & L & A). exists l. split; [exact N|]. split; [exact L|]. intros m J. apply E, A, J. Qed.

Definition somes (d : dict (option cproof)) : list cproof := flat_map (fun x => match snd x with Some c => [c] | None => [] end) d.
Definition occ (c : cproof) (l : list cproof) : nat := count_occ cp_eq_dec l c.

Definition is_c (c : cproof) (p : option cproof) : bool :=
  match p with Some d => if cp_eq_dec c d then true else false | None => false end.
Lemma occ_holding c d : occ c (somes d) = length (holding (is_c c) d).
Proof.
  unfold occ, holding. induction d as [|(m, [d0|]) d IH]; [reflexivity| |exact IH].
  change (somes ((m, Some d0) :: d)) with (d0 :: somes d). cbn [count_occ filter snd is_c].
  destruct (cp_eq_dec d0 c) as [->|N].
  - destruct (cp_eq_dec c c) as [_|N]; [|congruence]. cbn [length]. rewrite IH. reflexivity.
  - destruct (cp_eq_dec c d0) as [->|_]; [congruence|]. exact IH.
Qed.
Lemma occ_at_least c d k : NoDup (map fst d) ->
  k <= occ c (somes d) <-> at_least k (fun m => get m d = Some (Some c)).
Proof.
  intros N. rewrite occ_holding, holding_at_least by exact N. apply at_least_iff. intros m. split.
  - intros ([d0|] & G & E); cbn in E; [|discriminate]. destruct (cp_eq_dec c d0) as [->|]; [exact G|discriminate].
  - intros G. exists (Some c). split; [exact G|]. cbn. destruct (cp_eq_dec c c); congruence.
Qed.

(** ** Groups *)
Definition Grouped (gs : list ((nat * nat) * list (cproof * nat))) (l : list cproof) : Prop :=
  NoDup (map fst gs) /\
  (forall r g, In (r, g) gs -> g <> [] /\ NoDup (map fst g) /\ forall c k, In (c, k) g -> r = (c_start c, c_end c) /\ k = occ c l /\ 0 < k) /\
  (forall c, In c l -> exists g, In ((c_start c, c_end c), g) gs /\ In (c, occ c l) g).

Lemma occ_snoc c d l : occ c (l ++ [d]) = if cp_eq_dec d c then S (occ c l) else occ c l.
Proof.
  unfold occ. rewrite count_occ_app. cbn. destruct (cp_eq_dec d c); lia.
Qed.
Lemma occ_self c l : In c l -> 0 < occ c l.
Proof. intros J. apply (count_occ_In cp_eq_dec). exact J. Qed.

Definition GOK (r : nat * nat) (g : list (cproof * nat)) (l : list cproof) : Prop :=
  NoDup (map fst g) /\ (forall c k, In (c, k) g -> r = (c_start c, c_end c) /\ k = occ c l /\ 0 < k).
Lemma incr_in c g d k : In (d, k) (incr c g) -> d = c \/ In (d, k) g.
Proof.
  induction g as [|(d', k') g IH]; cbn; [intros [E|[]]; injection E as <- _; auto|].
  destruct (cp_eq_dec c d') as [->|N]; cbn.
  - intros [E|J]; [injection E as <- _; auto|auto].
  - intros [E|J]; [auto|]. destruct (IH J); auto.
Qed.
Lemma incr_keys c g d : In d (map fst (incr c g)) <-> d = c \/ In d (map fst g).
Proof.
  induction g as [|(d', k') g IH]; cbn; [intuition congruence|].
  destruct (cp_eq_dec c d') as [->|N]; cbn; [intuition congruence|]. rewrite IH. tauto.
Qed.
Lemma incr_nodup c g : NoDup (map fst g) -> NoDup (map fst (incr c g)).
Proof.
  induction g as [|(d', k') g IH]; cbn; intros N; [constructor; [intros []|constructor]|].
  inversion N as [|? ? N1 N2]; subst. destruct (cp_eq_dec c d') as [->|Ne]; cbn; [constructor; assumption|].
  constructor; [|apply IH; exact N2]. rewrite incr_keys. intros [E|J]; [congruence|exact (N1 J)].
Qed.
Lemma incr_c c g k : NoDup (map fst g) -> In (c, k) (incr c g) ->
  In (c, k - 1) g /\ 0 < k \/ (~ In c (map fst g) /\ k = 1).
Proof.
  induction g as [|(d', k') g IH]; cbn; intros N J; [destruct J as [E|[]]; injection E as <-; auto|].
  inversion N as [|? ? N1 N2]; subst. destruct (cp_eq_dec c d') as [->|Ne]; cbn in J.
  - destruct J as [E|J].
    + injection E as <-. left. cbn. rewrite Nat.sub_0_r. split; [auto|lia].
    + exfalso. apply N1. apply (in_map fst) in J. exact J.
  - destruct J as [E|J]; [congruence|]. destruct (IH N2 J) as [(J' & P)|(J' & P)]; [auto|]. right. split; [|exact P]. intros [E|X]; [congruence|exact (J' X)].
Qed.
Lemma incr_other c g d k : d <> c -> In (d, k) g -> In (d, k) (incr c g).
Proof.
  induction g as [|(d', k') g IH]; cbn; intros N J; [destruct J|]. destruct (cp_eq_dec c d') as [->|Ne].
  - destruct J as [E|J]; [congruence|right; exact J].
  - destruct J as [E|J]; [left; exact E|right; apply IH; assumption].
Qed.
Lemma incr_has c g : exists k, In (c, k) (incr c g).
Proof.
  assert (J : In c (map fst (incr c g))) by (apply incr_keys; auto).
  apply in_map_iff in J as ((c', k) & E & J). cbn in E. subst c'. exists k. exact J.
Qed.

Lemma add_group_in c gs r g : NoDup (map fst gs) -> In (r, g) (add_group c gs) ->
  (r <> (c_start c, c_end c) /\ In (r, g) gs) \/
  (r = (c_start c, c_end c) /\ exists g0, In (r, g0) gs /\ g = incr c g0) \/
  (r = (c_start c, c_end c) /\ ~ In r (map fst gs) /\ g = [(c, 1)]).
Proof.
  induction gs as [|((a, b), g') gs IH]; cbn; intros N J.
  - destruct J as [E|[]]. injection E as <- <-. right. right. auto.
  - inversion N as [|? ? N1 N2]; subst.
    destruct (Nat.eqb_spec (c_start c) a) as [Ea|Ea]; destruct (Nat.eqb_spec (c_end c) b) as [Eb|Eb]; cbn in J.
    1: { destruct J as [E|J].
         - injection E as <- <-. right. left. split; [congruence|]. exists g'. auto.
         - left. split; [|auto]. intros ->. apply N1. apply (in_map fst) in J. cbn in J. congruence. }
    all: destruct J as [E|J];
      [ injection E as <- <-; left; split; [congruence|auto]
      | destruct (IH N2 J) as [(X & Y)|[(X & g0 & Y & Z)|(X & Y & Z)]];
        [ left; auto | right; left; split; [exact X|]; exists g0; auto
        | right; right; split; [exact X|]; split; [|exact Z]; intros [E|K]; [congruence|exact (Y K)] ] ].
Qed.
Lemma add_group_keys c gs r : In r (map fst (add_group c gs)) <-> r = (c_start c, c_end c) \/ In r (map fst gs).
Proof.
  induction gs as [|((a, b), g') gs IH]; cbn; [intuition congruence|].
  destruct (Nat.eqb_spec (c_start c) a) as [Ea|Ea]; destruct (Nat.eqb_spec (c_end c) b) as [Eb|Eb]; cbn; rewrite ?IH; try tauto.
  subst. intuition congruence.
Qed.
Lemma add_group_nodup c gs : NoDup (map fst gs) -> NoDup (map fst (add_group c gs)).
Proof.
  induction gs as [|((a, b), g') gs IH]; cbn; intros N; [constructor; [intros []|constructor]|].
  inversion N as [|? ? N1 N2]; subst.
  destruct (Nat.eqb_spec (c_start c) a) as [Ea|Ea]; destruct (Nat.eqb_spec (c_end c) b) as [Eb|Eb]; cbn;
    (constructor; [|auto]); try exact N1; rewrite add_group_keys; intros [E|J]; try congruence; exact (N1 J).
Qed.
Lemma nodup_fst_eq {A C} (l : list (A * C)) a x y : NoDup (map fst l) -> In (a, x) l -> In (a, y) l -> x = y.
Proof.
  induction l as [|(a', x') l IH]; cbn; intros N J K; [destruct J|]. inversion N as [|? ? N1 N2]; subst.
  destruct J as [E|J], K as [F|K].
  - congruence.
  - injection E as -> ->. exfalso. apply N1. apply (in_map fst) in K. exact K.
  - injection F as -> ->. exfalso. apply N1. apply (in_map fst) in J. exact J.
  - apply IH; assumption.
Qed.

Lemma incr_nonempty c g : incr c g <> [].
Proof. destruct g as [|(d, k) g]; cbn; [discriminate|]. destruct (cp_eq_dec c d); discriminate. Qed.

Lemma add_group_grouped c gs l : Grouped gs l -> Grouped (add_group c gs) (l ++ [c]).
Proof.
  intros (N & A & H). split; [apply add_group_nodup; exact N|]. split.
  - intros r g J. destruct (add_group_in c gs r g N J) as [(X & Y)|[(X & g0 & Y & ->)|(X & Y & ->)]].
    + destruct (A r g Y) as (Z & Z1 & Z2). split; [exact Z|]. split; [exact Z1|]. intros d k K. destruct (Z2 d k K) as (E1 & E2 & E3).
      split; [exact E1|]. rewrite occ_snoc. destruct (cp_eq_dec c d) as [->|]; [congruence|auto].
    + destruct (A r g0 Y) as (Z & Z1 & Z2). split; [apply incr_nonempty|]. split; [apply incr_nodup; exact Z1|].
      intros d k K. rewrite occ_snoc. destruct (cp_eq_dec c d) as [<-|Nd].
      * split; [exact X|]. destruct (incr_c c g0 k Z1 K) as [(K' & P)|(K' & ->)].
        -- destruct (Z2 c (k - 1) K') as (_ & E2 & E3). lia.
        -- assert (O : occ c l = 0).
           { destruct (occ c l) eqn:O; [reflexivity|]. exfalso. apply K'.
             assert (J' : In c l) by (apply (count_occ_In cp_eq_dec); unfold occ in O; lia).
             destruct (H c J') as (g' & G1 & G2). rewrite X in Y. rewrite (nodup_fst_eq _ _ _ _ N Y G1). apply (in_map fst) in G2. exact G2. }
           lia.
      * destruct (incr_in c g0 d k K) as [E|K']; [congruence|]. exact (Z2 d k K').
    + split; [discriminate|]. split; [repeat constructor; intros []|]. intros d k [E|[]]. injection E as <- <-. split; [exact X|].
      rewrite occ_snoc. destruct (cp_eq_dec c c) as [_|]; [|congruence].
      assert (O : occ c l = 0).
      { destruct (occ c l) eqn:O; [reflexivity|]. exfalso. apply Y.
        assert (J' : In c l) by (apply (count_occ_In cp_eq_dec); unfold occ in O; lia).
        destruct (H c J') as (g' & G1 & G2). rewrite X. apply (in_map fst) in G1. exact G1. }
      lia.
  - intros d J.
    assert (G : In (c_start d, c_end d) (map fst (add_group c gs))).
    { apply add_group_keys. apply in_app_iff in J as [J|[->|[]]]; [|auto]. right.
      destruct (H d J) as (g & G1 & _). apply (in_map fst) in G1. exact G1. }
    apply in_map_iff in G as ((r, g) & E & G). cbn in E. subst r. exists g. split; [exact G|].
    rewrite occ_snoc.
    destruct (add_group_in c gs _ g N G) as [(X & Y)|[(X & g0 & Y & ->)|(X & Y & ->)]].
    + destruct (cp_eq_dec c d) as [->|Nd]; [congruence|].
      apply in_app_iff in J as [J|[->|[]]]; [|congruence]. destruct (H d J) as (g' & G1 & G2).
      rewrite (nodup_fst_eq _ _ _ _ N Y G1). exact G2.
    + destruct (A _ g0 Y) as (_ & Z1 & Z2). destruct (cp_eq_dec c d) as [<-|Nd].
      * destruct (incr_has c g0) as (k & K). destruct (incr_c c g0 k Z1 K) as [(K' & P)|(K' & ->)].
        -- destruct (Z2 c (k - 1) K') as (_ & E2 & _). replace (S (occ c l)) with k by lia. exact K.
        -- assert (O : occ c l = 0).
           { destruct (occ c l) eqn:O; [reflexivity|]. exfalso. apply K'.
             assert (J' : In c l) by (apply (count_occ_In cp_eq_dec); unfold occ in O; lia).
             destruct (H c J') as (g' & G1 & G2). rewrite (nodup_fst_eq _ _ _ _ N Y G1). apply (in_map fst) in G2. exact G2. }
           rewrite O. exact K.
      * apply in_app_iff in J as [J|[->|[]]]; [|congruence]. destruct (H d J) as (g' & G1 & G2).
        apply incr_other; [congruence|]. rewrite (nodup_fst_eq _ _ _ _ N Y G1). exact G2.
    + destruct (cp_eq_dec c d) as [<-|Nd].
      * left. f_equal. assert (O : occ c l = 0).
        { destruct (occ c l) eqn:O; [reflexivity|]. exfalso. apply Y.
          assert (J' : In c l) by (apply (count_occ_In cp_eq_dec); unfold occ in O; lia).
          destruct (H c J') as (g' & G1 & G2). apply (in_map fst) in G1. exact G1. }
        lia.
      * apply in_app_iff in J as [J|[->|[]]]; [|congruence]. exfalso. apply Y.
        destruct (H d J) as (g' & G1 & _). apply (in_map fst) in G1. exact G1.
Qed.

Lemma group_fold d : forall gs nulls l, Grouped gs l ->
  Grouped (fst (fold_left (fun '(gs, nulls) '(_, p) => match p with Some c => (add_group c gs, nulls) | None => (gs, S nulls) end) d (gs, nulls)))
    (l ++ somes d) /\
  snd (fold_left (fun '(gs, nulls) '(_, p) => match p with Some c => (add_group c gs, nulls) | None => (gs, S nulls) end) d (gs, nulls))
    = nulls + length (holding (fun p => match p with Some _ => false | None => true end) d).
Proof.
  induction d as [|(m, [c|]) d IH]; intros gs nulls l G; cbn [fold_left].
  - cbn. rewrite app_nil_r. auto.
  - destruct (IH (add_group c gs) nulls (l ++ [c]) (add_group_grouped c gs l G)) as (X & Y).
    split; [|exact Y]. rewrite <- app_assoc in X. exact X.
  - destruct (IH gs (S nulls) l G) as (X & Y). split; [exact X|]. rewrite Y. unfold holding. cbn [filter snd length]. lia.
Qed.
Definition null (p : option cproof) : bool := match p with Some _ => false | None => true end.
Lemma group_ok d : Grouped (fst (group d)) (somes d) /\ snd (group d) = length (holding null d).
Proof.
  unfold group. destruct (group_fold d [] 0 []) as (X & Y).
  - split; [constructor|]. split; [intros r g []|intros c []].
  - split; [exact X|exact Y].
Qed.

(** ** The choice *)
Lemma reliable_sound s gs l c : Grouped gs l -> In c (reliable s gs) -> In c l /\ same_consistency_proof (q s) <= occ c l.
Proof.
  intros (N & A & H) J. unfold reliable in J. apply in_flat_map in J as ((r, g) & J & K).
  destruct (find _ g) as [(c', k)|] eqn:F; [|destruct K]. destruct K as [<-|[]].
  apply List.find_some in F as (F1 & F2). destruct (A r g J) as (_ & _ & Z). destruct (Z _ _ F1) as (_ & -> & P).
  split; [apply (count_occ_In cp_eq_dec); exact P|]. apply Nat.leb_le. exact F2.
Qed.
Lemma reliable_complete s gs l c : Grouped gs l -> In c l -> same_consistency_proof (q s) <= occ c l ->
  exists c', In c' (reliable s gs) /\ c_start c' = c_start c /\ c_end c' = c_end c.
Proof.
  intros (N & A & H) J L. destruct (H c J) as (g & G1 & G2).
  destruct (find (fun '(_, count) => is_reached (same_consistency_proof (q s)) count) g) as [(c', k)|] eqn:F.
  - exists c'. apply List.find_some in F as F'. destruct F' as (F1 & F2). destruct (A _ _ G1) as (_ & _ & Z).
    destruct (Z _ _ F1) as (E & _). injection E as E1 E2. split; [|split; congruence].
    unfold reliable. apply in_flat_map. exists ((c_start c, c_end c), g). split; [exact G1|]. rewrite F. left. reflexivity.
  - exfalso. pose proof (find_none _ _ F _ G2) as X. cbv beta iota in X. unfold is_reached in X. apply Nat.leb_gt in X. lia.
Qed.

Definition choose (z : nat) (latest : option cproof) (c : cproof) : option cproof :=
  if negb (c_start c =? z) then latest
  else match latest with
       | None => Some c
       | Some l => if c_end l <? c_end c then Some c else latest
       end.
Lemma choose_fold z : forall l a,
  (forall c, a = Some c -> c_start c = z) ->
  match fold_left (choose z) l a with
  | Some c => (In c l \/ a = Some c) /\ c_start c = z /\
      (forall c', In c' l \/ a = Some c' -> c_start c' = z -> c_end c' <= c_end c)
  | None => a = None /\ forall c', In c' l -> c_start c' <> z
  end.
Proof.
  induction l as [|x l IH]; intros a Ha; cbn [fold_left].
  - destruct a as [c|]; [|split; [reflexivity|intros c' []]].
    split; [auto|]. split; [apply Ha; reflexivity|]. intros c' [[]|E] _. injection E as ->. lia.
  - assert (Hb : forall c, choose z a x = Some c -> c_start c = z).
    { intros c. unfold choose. destruct (Nat.eqb_spec (c_start x) z) as [E|E]; cbn [negb]; [|auto].
      destruct a as [c0|]; [destruct (c_end c0 <? c_end x); [intros X; injection X as <-; exact E|auto]|].
      intros X. injection X as <-. exact E. }
    specialize (IH (choose z a x) Hb). destruct (fold_left (choose z) l (choose z a x)) as [c|].
    + destruct IH as (I1 & I2 & I3). split; [|split; [exact I2|]].
      * destruct I1 as [I1|I1]; [left; right; exact I1|]. unfold choose in I1. destruct (negb (c_start x =? z)); [auto|].
        destruct a as [c0|]; [destruct (c_end c0 <? c_end x)|]; try (injection I1 as <-; left; left; reflexivity). auto.
      * intros c' [[->|J]|J] Hc.
        -- unfold choose in I3. destruct (Nat.eqb_spec (c_start c') z) as [_|]; [|congruence]. cbn [negb] in I3. destruct a as [c0|].
           ++ destruct (Nat.ltb_spec (c_end c0) (c_end c')); [apply I3; auto|].
              specialize (I3 c0 (or_intror eq_refl) (Ha _ eq_refl)). lia.
           ++ apply I3; auto.
        -- apply I3; auto.
        -- unfold choose in I3. destruct (Nat.eqb_spec (c_start x) z) as [Ex|]; cbn [negb] in I3; [|apply I3; auto]. subst a.
           destruct (Nat.ltb_spec (c_end c') (c_end x)); [|apply I3; auto].
           specialize (I3 x (or_intror eq_refl) Ex). lia.
    + destruct IH as (I1 & I2). unfold choose in I1. destruct (Nat.eqb_spec (c_start x) z) as [Ex|Ex]; cbn [negb] in I1.
      * destruct a as [c0|]; [destruct (c_end c0 <? c_end x)|]; discriminate.
      * split; [exact I1|]. intros c' [<-|J]; [exact Ex|exact (I2 c' J)].
Qed.
Lemma latest_reliable_eq e s gs : latest_reliable e s gs = fold_left (choose (e_size e)) (reliable s gs) None.
Proof. reflexivity. Qed.

Lemma latest_some e s gs l c : Grouped gs l -> latest_reliable e s gs = Some c ->
  In c l /\ same_consistency_proof (q s) <= occ c l /\ c_start c = e_size e /\
  forall c', In c' l -> same_consistency_proof (q s) <= occ c' l -> c_start c' = e_size e -> c_end c' <= c_end c.
Proof.
  intros G E. rewrite latest_reliable_eq in E.
  pose proof (choose_fold (e_size e) (reliable s gs) None (fun c X => ltac:(discriminate))) as X. rewrite E in X.
  destruct X as ([X1|X1] & X2 & X3); [|discriminate]. destruct (reliable_sound s gs l c G X1) as (Y1 & Y2).
  split; [exact Y1|]. split; [exact Y2|]. split; [exact X2|]. intros c' J L Ec.
  destruct (reliable_complete s gs l c' G J L) as (c2 & R & E1 & E2). rewrite <- E2. apply X3; [auto|congruence].
Qed.
Lemma latest_none e s gs l : Grouped gs l -> latest_reliable e s gs = None ->
  forall c, In c l -> same_consistency_proof (q s) <= occ c l -> c_start c <> e_size e.
Proof.
  intros G E c J L Ec. rewrite latest_reliable_eq in E.
  pose proof (choose_fold (e_size e) (reliable s gs) None (fun c X => ltac:(discriminate))) as X. rewrite E in X.
  destruct X as (_ & X). destruct (reliable_complete s gs l c G J L) as (c2 & R & E1 & E2).
  apply (X c2 R). congruence.
Qed.

(** ** Keys *)
Definition kocc (k : key) (l : list key) : nat := count_occ key_eq_dec l k.
Lemma count_key_ok k : forall g l,
  NoDup (map fst g) -> (forall k' n, In (k', n) g -> n = kocc k' l /\ 0 < n) -> (forall k', In k' l -> In (k', kocc k' l) g) ->
  NoDup (map fst (count_key k g)) /\
  (forall k' n, In (k', n) (count_key k g) -> n = kocc k' (l ++ [k]) /\ 0 < n) /\
  (forall k', In k' (l ++ [k]) -> In (k', kocc k' (l ++ [k])) (count_key k g)).
Proof.
  intros g l N A H.
  assert (KS : forall k' g, In k' (map fst (count_key k g)) <-> k' = k \/ In k' (map fst g)).
  { intros k'. induction g0 as [|(k0, n0) g0 IH]; cbn; [intuition congruence|].
    destruct (key_eq_dec k k0) as [->|Ne]; cbn; [intuition congruence|]. rewrite IH. tauto. }
  assert (ND : forall g, NoDup (map fst g) -> NoDup (map fst (count_key k g))).
  { induction g0 as [|(k0, n0) g0 IH]; cbn; intros N0; [constructor; [intros []|constructor]|].
    inversion N0 as [|? ? N1 N2]; subst. destruct (key_eq_dec k k0) as [->|Ne]; cbn; [constructor; assumption|].
    constructor; [|auto]. rewrite KS. intros [E|J]; [congruence|exact (N1 J)]. }
  assert (OT : forall g k' n, k' <> k -> In (k', n) (count_key k g) <-> In (k', n) g).
  { induction g0 as [|(k0, n0) g0 IH]; cbn; intros k' n Nk; [intuition congruence|].
    destruct (key_eq_dec k k0) as [->|Ne]; cbn; [intuition congruence|]. rewrite IH by exact Nk. tauto. }
  assert (SE : forall g n, NoDup (map fst g) -> In (k, n) (count_key k g) -> (0 < n /\ In (k, n - 1) g) \/ (n = 1 /\ ~ In k (map fst g))).
  { induction g0 as [|(k0, n0) g0 IH]; cbn; intros n N0 J; [destruct J as [E|[]]; injection E as <-; auto|].
    inversion N0 as [|? ? N1 N2]; subst. destruct (key_eq_dec k k0) as [->|Ne]; cbn in J.
    - destruct J as [E|J]; [injection E as <-; left; cbn; rewrite Nat.sub_0_r; split; [lia|auto]|].
      exfalso. apply N1. apply (in_map fst) in J. exact J.
    - destruct J as [E|J]; [congruence|]. destruct (IH n N2 J) as [(P & K)|(P & K)]; [auto|]. right. split; [exact P|].
      intros [E|X]; [congruence|exact (K X)]. }
  assert (OS : forall k', kocc k' (l ++ [k]) = if key_eq_dec k k' then S (kocc k' l) else kocc k' l).
  { intros k'. unfold kocc. rewrite count_occ_app. cbn. destruct (key_eq_dec k k'); lia. }
  assert (SV : forall n, In (k, n) (count_key k g) -> n = S (kocc k l)).
  { intros n J. destruct (SE g n N J) as [(P & K)|(-> & K)].
    - destruct (A _ _ K). lia.
    - destruct (kocc k l) eqn:O; [reflexivity|]. exfalso. apply K.
      assert (J' : In k l) by (apply (count_occ_In key_eq_dec); unfold kocc in O; lia).
      apply H in J'. apply (in_map fst) in J'. exact J'. }
  split; [apply ND; exact N|]. split.
  - intros k' n J. rewrite OS. destruct (key_eq_dec k k') as [<-|Ne].
    + pose proof (SV n J). lia.
    + apply (proj1 (OT g k' n ltac:(congruence))) in J. exact (A _ _ J).
  - intros k' J. rewrite OS. destruct (key_eq_dec k k') as [<-|Ne].
    + assert (X : In k (map fst (count_key k g))) by (apply KS; auto).
      apply in_map_iff in X as ((k2, n) & E & X). cbn in E. subst k2. pose proof (SV n X). subst n. exact X.
    + apply OT; [congruence|]. apply in_app_iff in J as [J|[E|[]]]; [|congruence]. apply H. exact J.
Qed.
Lemma count_keys_ok ks : forall g l,
  NoDup (map fst g) -> (forall k' n, In (k', n) g -> n = kocc k' l /\ 0 < n) -> (forall k', In k' l -> In (k', kocc k' l) g) ->
  let g' := fold_left (fun g k => count_key k g) ks g in
  (forall k' n, In (k', n) g' -> n = kocc k' (l ++ ks) /\ 0 < n) /\ (forall k', In k' (l ++ ks) -> In (k', kocc k' (l ++ ks)) g').
Proof.
  induction ks as [|k ks IH]; intros g l N A H; cbn [fold_left].
  - rewrite app_nil_r. auto.
  - destruct (count_key_ok k g l N A H) as (N' & A' & H'). pose proof (IH _ (l ++ [k]) N' A' H') as X.
    rewrite <- app_assoc in X. exact X.
Qed.
Lemma insert_desc_in {A} (x y : A * nat) l : In y (insert_desc x l) <-> y = x \/ In y l.
Proof.
  induction l as [|z l IH]; cbn; [intuition congruence|]. destruct (snd z <=? snd x); cbn; [intuition congruence|]. rewrite IH. intuition congruence.
Qed.
Lemma insert_desc_all {A} (l : list (A * nat)) y : In y (fold_right insert_desc [] l) <-> In y l.
Proof. induction l as [|z l IH]; cbn; [tauto|]. rewrite insert_desc_in, IH. intuition congruence. Qed.
Lemma most_common_in ks k n : In (k, n) (most_common ks) <-> n = kocc k ks /\ 0 < n.
Proof.
  unfold most_common. rewrite insert_desc_all.
  destruct (count_keys_ok ks [] [] (NoDup_nil _) (fun _ _ X => match X with end) (fun _ X => match X with end)) as (A & H).
  cbn [app] in A, H. split; [apply A|]. intros (-> & P). apply H. apply (count_occ_In key_eq_dec). exact P.
Qed.

Lemma min_key_some ks k : min_3PC_key ks = Some k -> In k ks /\ forall k', In k' ks -> snd k <= snd k'.
Proof.
  revert k. induction ks as [|x ks IH]; intros k; cbn; [discriminate|]. destruct (min_3PC_key ks) as [k'|] eqn:E.
  - destruct (IH k' eq_refl) as (J & A). destruct (Nat.leb_spec (snd x) (snd k')); intros F; injection F as <-.
    + split; [auto|]. intros y [->|K]; [lia|]. specialize (A y K). lia.
    + split; [auto|]. intros y [->|K]; [lia|]. apply A. exact K.
  - intros F. injection F as <-. split; [auto|]. destruct ks as [|y ks]; [intros z [->|[]]; lia|].
    cbn in E. destruct (min_3PC_key ks) as [z|]; [destruct (snd y <=? snd z)|]; discriminate.
Qed.
Lemma min_key_none ks : min_3PC_key ks = None -> ks = [].
Proof. destruct ks as [|x ks]; cbn; [reflexivity|]. destruct (min_3PC_key ks) as [z|]; [destruct (snd x <=? snd z)|]; discriminate. Qed.

Lemma kocc_at_least k (d : dict key) n : NoDup (map fst d) ->
  n <= kocc k (map snd d) <-> at_least n (fun m => get m d = Some k).
Proof.
  intros N.
  assert (E : kocc k (map snd d) = length (holding (fun k' => if key_eq_dec k k' then true else false) d)).
  { unfold kocc, holding. clear N. induction d as [|(m, k') d IH]; cbn; [reflexivity|].
    destruct (key_eq_dec k' k) as [->|Ne]; [destruct (key_eq_dec k k) as [_|]; [|congruence]|destruct (key_eq_dec k k') as [->|]; [congruence|]]; cbn; lia. }
  rewrite E, holding_at_least by exact N. apply at_least_iff. intros m. split.
  - intros (v & G & X). destruct (key_eq_dec k v) as [->|]; [exact G|discriminate].
  - intros G. exists k. split; [exact G|]. destruct (key_eq_dec k k); congruence.
Qed.

Lemma last_3PC_some s v p : NoDup (map fst (k_keys s)) -> get_last_txn_3PC_key s = Some (v, p) ->
  at_least (ledger_status_last_3PC (q s)) (fun m => get m (k_keys s) = Some (Some v, Some p)) /\
  forall v' p', at_least (ledger_status_last_3PC (q s)) (fun m => get m (k_keys s) = Some (Some v', Some p')) -> p <= p'.
Proof.
  intros N E. unfold get_last_txn_3PC_key in E. apply min_key_some in E as (J & A). split.
  - apply in_flat_map in J as ((k, freq) & J & K). apply most_common_in in J as (-> & P).
    destruct k as ([v'|], [p'|]); try destruct K. destruct (is_reached _ _) eqn:R; [|destruct K].
    destruct K as [K|[]]. injection K as -> ->. apply kocc_at_least; [exact N|]. apply Nat.leb_le. exact R.
  - intros v' p' L. apply kocc_at_least in L; [|exact N]. apply (A (v', p')). apply in_flat_map.
    exists ((Some v', Some p'), kocc (Some v', Some p') (map snd (k_keys s))). split.
    + apply most_common_in. split; [reflexivity|]. unfold q, Quorums, ledger_status_last_3PC in L. lia.
    + replace (is_reached _ _) with true; [left; reflexivity|]. symmetry. apply Nat.leb_le. exact L.
Qed.
Lemma last_3PC_none s : NoDup (map fst (k_keys s)) -> get_last_txn_3PC_key s = None ->
  forall v p, ~ at_least (ledger_status_last_3PC (q s)) (fun m => get m (k_keys s) = Some (Some v, Some p)).
Proof.
  intros N E v' p' L. unfold get_last_txn_3PC_key in E. apply min_key_none in E.
  apply kocc_at_least in L; [|exact N].
  assert (X : In (v', p') []); [|destruct X]. rewrite <- E. apply in_flat_map.
  exists ((Some v', Some p'), kocc (Some v', Some p') (map snd (k_keys s))). split.
  + apply most_common_in. split; [reflexivity|]. unfold q, Quorums, ledger_status_last_3PC in L. lia.
  + replace (is_reached _ _) with true; [left; reflexivity|]. symmetry. apply Nat.leb_le. exact L.
Qed.

(** ** The tables are the history *)
Section History.
  Variable lid : nat.
  Notation last_word := (last_word lid).
  Notation confirmed := (confirmed lid).
  Notation last_key := (last_key lid).
  Notation step := (step lid).
  Notation run := (run lid).
  Notation news := (news lid).

  Lemma last_word_snoc m h x : last_word m (h ++ [x]) = word lid m (last_word m h) x.
  Proof. unfold ConsProof_Spec.last_word. rewrite fold_left_app. reflexivity. Qed.
  Lemma confirmed_snoc m h x : confirmed m (h ++ [x]) = conf lid m (confirmed m h) x.
  Proof. unfold ConsProof_Spec.confirmed. rewrite fold_left_app. reflexivity. Qed.
  Lemma last_key_snoc m h x : last_key m (h ++ [x]) = keyed lid m (last_key m h) x.
  Proof. unfold ConsProof_Spec.last_key. rewrite fold_left_app. reflexivity. Qed.
  Lemma pool_snoc n h x : pool n (h ++ [x]) = match x with (e, OStart _) => length (e_names e) | _ => pool n h end.
  Proof. unfold pool. rewrite fold_left_app. reflexivity. Qed.
  Lemma run_snoc h x s : run (h ++ [x]) s = step (run h s) x.
  Proof. unfold ConsProof_Model.run. rewrite fold_left_app. reflexivity. Qed.

  Lemma word_proof m c : forall h, last_word m h = Some (Some c) -> c_ledger c = lid /\ c_start c < c_end c.
  Proof.
    intros h. induction h as [|x h IH] using rev_ind; [discriminate|]. rewrite last_word_snoc.
    destruct x as (e, [r|st frm|c0 frm| | |]); cbn [word]; auto; try discriminate.
    - destruct ((frm =? m) && not_newer lid e st); [discriminate|auto].
    - destruct ((frm =? m) && usable lid e c0) eqn:E; [|auto]. intros F. injection F as ->. unfold usable in E.
      rewrite !andb_true_iff in E. destruct E as (_ & ((E1 & E2) & E3)).
      split; [apply Nat.eqb_eq; exact E1|apply Nat.ltb_lt; exact E3].
  Qed.
  Lemma word_confirmed m : forall h, last_word m h = Some None -> confirmed m h = true.
  Proof.
    intros h. induction h as [|x h IH] using rev_ind; [discriminate|]. rewrite last_word_snoc, confirmed_snoc.
    destruct x as (e, [r|st frm|c0 frm| | |]); cbn [word conf]; auto; try discriminate.
    - destruct ((frm =? m) && not_newer lid e st); [intros _; apply orb_true_r|]. intros F. rewrite (IH F). reflexivity.
    - destruct ((frm =? m) && usable lid e c0); [discriminate|auto].
  Qed.

  Definition Votes (h : list (env * op)) (s : st) : Prop :=
    NoDup (k_same s) /\ NoDup (map fst (k_proofs s)) /\ NoDup (map fst (k_keys s)) /\
    (forall m, get m (k_proofs s) = last_word m h) /\ (forall m, In m (k_same s) <-> confirmed m h = true) /\
    (forall m, get m (k_keys s) = last_key m h).
  Definition Inv (n : nat) (h : list (env * op)) (s : st) : Prop :=
    k_n s = pool n h /\ (k_working s = true -> Votes h s).

  Lemma votes_same_fields h s s' : k_same s' = k_same s -> k_proofs s' = k_proofs s -> k_keys s' = k_keys s -> Votes h s -> Votes h s'.
  Proof. unfold Votes. intros -> -> ->. auto. Qed.
  Lemma votes_word h x s : (forall m v, word lid m v x = v) -> (forall m v, conf lid m v x = v) -> (forall m v, keyed lid m v x = v) ->
    Votes h s -> Votes (h ++ [x]) s.
  Proof.
    intros W C K (A1 & A2 & A3 & A4 & A5 & A6). split; [exact A1|]. split; [exact A2|]. split; [exact A3|].
    split; [intros m; rewrite last_word_snoc, W; apply A4|]. split; [intros m; rewrite confirmed_snoc, C; apply A5|].
    intros m; rewrite last_key_snoc, K; apply A6.
  Qed.

  Lemma nulls_le h s : Votes h s -> length (holding null (k_proofs s)) <= length (k_same s).
  Proof.
    intros (A1 & A2 & A3 & A4 & A5 & A6). rewrite <- (map_length fst (holding null (k_proofs s))). apply NoDup_incl_length.
    - apply nodup_filter. exact A2.
    - intros m J. apply in_map_iff in J as ((m', v) & <- & J). apply filter_In in J as (J & E). cbn in E. destruct v; [discriminate|].
      apply A5. apply word_confirmed. rewrite <- A4. apply in_get; assumption.
  Qed.
  Lemma needed h s : Votes h s -> is_catchup_needed s = negb (ledger_status (q s) <=? length (k_same s)).
  Proof.
    intros V. unfold is_catchup_needed, is_reached. destruct (Nat.leb_spec (ledger_status (q s)) (length (k_same s))) as [|Lt]; [reflexivity|].
    destruct (negb _); [reflexivity|]. rewrite (proj2 (group_ok (k_proofs s))). pose proof (nulls_le h s V).
    cbn [negb]. destruct (Nat.leb_spec (ledger_status (q s)) (length (holding null (k_proofs s)))); [lia|reflexivity].
  Qed.
  Lemma not_needed h s : Votes h s -> is_catchup_needed s = false <-> at_least (ledger_status (q s)) (fun m => confirmed m h = true).
  Proof.
    intros V. rewrite (needed h s V). destruct V as (A1 & A2 & A3 & A4 & A5 & A6).
    destruct (Nat.leb_spec (ledger_status (q s)) (length (k_same s))) as [Le|Lt]; cbn [negb].
    - split; [intros _|reflexivity]. exists (k_same s). split; [exact A1|]. split; [exact Le|]. intros m J. apply A5. exact J.
    - split; [discriminate|]. intros (l & N & L & A). exfalso.
      pose proof (NoDup_incl_length N (fun m J => proj2 (A5 m) (A m J))). lia.
  Qed.

  (** *** What counts a message *)
  Definition s_status (e : env) (ss : lstatus) (frm : nat) (s : st) : st :=
    let s := with_votes (add frm (k_same s)) (set frm None (k_proofs s)) s in
    if e_seqNo e =? ls_size ss then with_keys (set frm (ls_view ss, ls_pp ss) (k_keys s)) s else s.
  Lemma s_status_fields e ss frm s : let s1 := s_status e ss frm s in
    k_n s1 = k_n s /\ k_working s1 = k_working s /\ k_asked s1 = k_asked s /\ k_tstatus s1 = k_tstatus s /\
    k_tproof s1 = k_tproof s /\ k_pending s1 = k_pending s /\ k_log s1 = k_log s.
  Proof. unfold s_status. destruct (e_seqNo e =? ls_size ss); cbn; auto 10. Qed.
  Lemma s_status_votes h e ss frm s : Votes h s -> not_newer lid e ss = true -> Votes (h ++ [(e, OStatus ss frm)]) (s_status e ss frm s).
  Proof.
    intros (A1 & A2 & A3 & A4 & A5 & A6) E. assert (E0 := E). unfold not_newer in E0. apply andb_true_iff in E0 as (E1 & E2).
    assert (X : k_same (s_status e ss frm s) = add frm (k_same s) /\ k_proofs (s_status e ss frm s) = set frm None (k_proofs s) /\
      k_keys (s_status e ss frm s) = if e_seqNo e =? ls_size ss then set frm (ls_view ss, ls_pp ss) (k_keys s) else k_keys s).
    { unfold s_status. destruct (e_seqNo e =? ls_size ss); cbn; auto. }
    destruct X as (X1 & X2 & X3). unfold Votes. rewrite X1, X2, X3.
    split; [apply add_nodup; exact A1|]. split; [apply nodup_set; exact A2|].
    split; [destruct (e_seqNo e =? ls_size ss); [apply nodup_set|]; exact A3|].
    split; [|split].
    - intros m. rewrite get_set, last_word_snoc. cbn [word]. rewrite E, andb_true_r, (Nat.eqb_sym m frm). destruct (frm =? m); [reflexivity|apply A4].
    - intros m. rewrite add_in, A5, confirmed_snoc. cbn [conf]. rewrite E, andb_true_r, orb_true_iff, Nat.eqb_eq. intuition congruence.
    - intros m. rewrite last_key_snoc. cbn [keyed]. rewrite E1, andb_true_r, (Nat.eqb_sym (ls_size ss)).
      destruct (e_seqNo e =? ls_size ss); [rewrite get_set, andb_true_r, (Nat.eqb_sym m frm); destruct (frm =? m); [reflexivity|]|rewrite andb_false_r]; apply A6.
  Qed.
  Definition s_proof (c : cproof) (frm : nat) (s : st) : st := with_votes (k_same s) (set frm (Some c) (k_proofs s)) s.
  Lemma s_proof_votes h e c frm s : Votes h s -> usable lid e c = true -> Votes (h ++ [(e, OProof c frm)]) (s_proof c frm s).
  Proof.
    intros (A1 & A2 & A3 & A4 & A5 & A6) E. unfold Votes, s_proof. cbn [k_same k_proofs k_keys with_votes].
    split; [exact A1|]. split; [apply nodup_set; exact A2|]. split; [exact A3|]. split; [|split].
    - intros m. rewrite get_set, last_word_snoc. cbn [word]. rewrite E, andb_true_r, (Nat.eqb_sym m frm). destruct (frm =? m); [reflexivity|apply A4].
    - intros m. rewrite confirmed_snoc. cbn [conf]. apply A5.
    - intros m. rewrite last_key_snoc. cbn [keyed]. apply A6.
  Qed.

  (** *** Asking at once *)
  Definition claims (z : nat) (p : option cproof) : nat := match p with Some c => c_end c | None => z end.
  Lemma insert_rev_perm x l : Permutation (x :: l) (insert_rev x l).
  Proof.
    induction l as [|y l IH]; cbn [insert_rev]; [reflexivity|]. destruct (y <=? x); [reflexivity|].
    etransitivity; [apply perm_swap|]. constructor. exact IH.
  Qed.
  Lemma sort_rev_perm l : Permutation l (sort_rev l).
  Proof. induction l as [|x l IH]; cbn [sort_rev fold_right]; [reflexivity|]. etransitivity; [|apply insert_rev_perm]. constructor. exact IH. Qed.
  Lemma insert_rev_sorted x l : (forall i j a b, i <= j -> nth_error l i = Some a -> nth_error l j = Some b -> b <= a) ->
    forall i j a b, i <= j -> nth_error (insert_rev x l) i = Some a -> nth_error (insert_rev x l) j = Some b -> b <= a.
  Proof.
    induction l as [|y l IH]; intros S i j a b L Ea Eb.
    - destruct i as [|[|i]], j as [|[|j]]; cbn [insert_rev nth_error] in Ea, Eb; try discriminate; try lia. assert (a = b) by congruence. lia.
    - cbn [insert_rev] in *. destruct (Nat.leb_spec y x) as [Le|Gt].
      + destruct i as [|i], j as [|j]; cbn [nth_error] in Ea, Eb; try lia.
        * assert (a = b) by congruence. lia.
        * injection Ea as <-. pose proof (S 0 j y b (Nat.le_0_l j) eq_refl Eb). lia.
        * exact (S i j a b ltac:(lia) Ea Eb).
      + destruct i as [|i], j as [|j]; cbn [nth_error] in Ea, Eb; try lia.
        * assert (a = b) by congruence. lia.
        * injection Ea as <-. apply nth_error_In in Eb. apply (Permutation_in _ (Permutation_sym (insert_rev_perm x l))) in Eb.
          destruct Eb as [<-|Eb]; [lia|]. apply In_nth_error in Eb as (k & Eb). exact (S 0 (Datatypes.S k) y b ltac:(lia) eq_refl Eb).
        * apply (IH (fun i j a b L Ea Eb => S (Datatypes.S i) (Datatypes.S j) a b ltac:(lia) Ea Eb) i j a b ltac:(lia) Ea Eb).
  Qed.
  Lemma sort_rev_sorted l : forall i j a b, i <= j -> nth_error (sort_rev l) i = Some a -> nth_error (sort_rev l) j = Some b -> b <= a.
  Proof.
    induction l as [|x l IH]; cbn [sort_rev fold_right].
    - intros i j a b _ E. destruct i; discriminate.
    - apply insert_rev_sorted. exact IH.
  Qed.
  Lemma filter_len_perm {A} (f : A -> bool) l l' : Permutation l l' -> length (filter f l) = length (filter f l').
  Proof.
    induction 1 as [|x l l' P IH|x y l|l l' l'' P1 IH1 P2 IH2]; cbn; [reflexivity| | |congruence].
    - destruct (f x); cbn; congruence.
    - destruct (f x), (f y); reflexivity.
  Qed.
  Lemma filter_all {A} (f : A -> bool) l : (forall x, In x l -> f x = true) -> filter f l = l.
  Proof. induction l as [|x l IH]; cbn; intros F; [reflexivity|]. rewrite (F x (or_introl eq_refl)), IH; [reflexivity|]. intros y J. apply F. right. exact J. Qed.
  Lemma filter_le {A} (f : A -> bool) l : length (filter f l) <= length l.
  Proof. induction l as [|x l IH]; cbn; [lia|]. destruct (f x); cbn; lia. Qed.
  (** the element at place [k] of the sorted list: more than [k] are as large, at most [k] larger *)
  Lemma nth_sorted l k v : nth_error (sort_rev l) k = Some v ->
    S k <= length (filter (fun x => v <=? x) l) /\ length (filter (fun x => v <? x) l) <= k.
  Proof.
    intros E. rewrite !(filter_len_perm _ _ _ (sort_rev_perm l)).
    pose proof (sort_rev_sorted l) as S. revert S E. generalize (sort_rev l). clear l. intros l S E.
    apply nth_error_split in E as (l1 & l2 & -> & <-). rewrite !filter_app, !app_length. cbn [filter].
    rewrite Nat.leb_refl, Nat.ltb_irrefl. split.
    - assert (X : filter (fun x => v <=? x) l1 = l1).
      { apply filter_all. intros a J. apply In_nth_error in J as (i & J). apply Nat.leb_le.
        assert (Li : i < length l1) by (apply nth_error_Some; congruence).
        apply (S i (length l1) a v); [lia| |]; [rewrite nth_error_app1 by exact Li; exact J|].
        rewrite nth_error_app2, Nat.sub_diag by lia. reflexivity. }
      rewrite X. cbn [length]. lia.
    - assert (X : filter (fun x => v <? x) l2 = []).
      { destruct (filter (fun x => v <? x) l2) as [|y r] eqn:F; [reflexivity|]. exfalso.
        assert (J : In y (filter (fun x => v <? x) l2)) by (rewrite F; left; reflexivity).
        apply filter_In in J as (J & Lt). apply Nat.ltb_lt in Lt. apply In_nth_error in J as (j & J).
        assert (y <= v); [|lia]. apply (S (length l1) (length l1 + Datatypes.S j) v y); [lia| |].
        - rewrite nth_error_app2, Nat.sub_diag by lia. reflexivity.
        - rewrite nth_error_app2 by lia. replace (length l1 + Datatypes.S j - length l1) with (Datatypes.S j) by lia. exact J. }
      rewrite X. pose proof (filter_le (fun x => v <? x) l1). cbn [length]. lia.
  Qed.

  Lemma quorum_room n : 4 <= n -> getMaxFailures n < n - getMaxFailures n - 1.
  Proof.
    intros L. unfold getMaxFailures. destruct (Nat.leb_spec 4 n); [|lia].
    pose proof (Nat.mul_div_le (n - 1) 3 ltac:(lia)). lia.
  Qed.
  Definition sizes_of (e : env) (s : st) : list nat := map (fun x => claims (e_size e) (snd x)) (k_proofs s).
  Lemma try_asking_cases e s : 0 < length (k_proofs s) ->
    (try_asking e s = (s, Ok tt) /\
       (k_asked s = true \/ length (k_proofs s) < k_n s - q_f (q s) - 1 \/
        length (filter (fun x => e_size e <? x) (sizes_of e s)) <= q_f (q s))) \/
    (k_asked s = false /\ k_n s - q_f (q s) - 1 <= length (k_proofs s) /\
     exists b, e_size e < b /\ q_f (q s) < length (filter (fun x => b <=? x) (sizes_of e s)) /\
       length (filter (fun x => b <? x) (sizes_of e s)) <= q_f (q s) /\
       try_asking e s = (with_asked (emit (LAskProof (e_size e) b (e_eligible e)) s), Ok tt)).
  Proof.
    intros P. unfold try_asking. destruct (k_asked s) eqn:A; [left; auto|].
    destruct (Nat.ltb_spec (length (k_proofs s)) (k_n s - q_f (q s) - 1)) as [Lt|Ge]; [left; auto|].
    replace (map (fun '(_, p) => match p with Some c => c_end c | None => e_size e end) (k_proofs s)) with (sizes_of e s)
      by (apply map_ext; intros (m, [c|]); reflexivity).
    destruct (nth_error (sort_rev (sizes_of e s)) (q_f (q s))) as [b|] eqn:E.
    - destruct (nth_sorted _ _ _ E) as (X1 & X2). destruct (Nat.leb_spec b (e_size e)) as [Le|Gt].
      + left. split; [reflexivity|]. right. right. etransitivity; [|exact X2].
        assert (Y : forall l, length (filter (fun x => e_size e <? x) l) <= length (filter (fun x => b <? x) l)).
        { induction l as [|y l IH]; cbn [filter]; [reflexivity|]. destruct (Nat.ltb_spec (e_size e) y), (Nat.ltb_spec b y); cbn [length]; lia. }
        apply Y.
      + right. split; [reflexivity|]. split; [exact Ge|]. exists b. split; [exact Gt|]. split; [exact X1|]. split; [exact X2|reflexivity].
    - exfalso. apply nth_error_None in E. rewrite <- (Permutation_length (sort_rev_perm _)) in E. unfold sizes_of in E. rewrite map_length in E.
      cbn in E, Ge. pose proof (quorum_room (k_n s)) as R. unfold q, Quorums in *. cbn in *.
      unfold getMaxFailures in *. destruct (Nat.leb_spec 4 (k_n s)); [|lia]. specialize (R ltac:(lia)). lia.
  Qed.

  (** *** One step *)
  Definition no_start (y : entry) : Prop := match y with LStart _ _ => False | _ => True end.
  Lemma news_app s x l : k_log (step s x) = k_log s ++ l -> news s x = l.
  Proof. unfold ConsProof_Spec.news. intros ->. rewrite skipn_app, skipn_all, Nat.sub_diag. reflexivity. Qed.

  Lemma status_step h e ss frm s : k_working s = true -> Votes h s -> not_newer lid e ss = true ->
    let h' := h ++ [(e, OStatus ss frm)] in let s1 := s_status e ss frm s in
    Votes h' s1 /\
    ((at_least (ledger_status (q s)) (fun m => confirmed m h' = true) /\ step s (e, OStatus ss frm) = finish_no_catchup lid e s1) \/
     (~ at_least (ledger_status (q s)) (fun m => confirmed m h' = true) /\ step s (e, OStatus ss frm) = s1)).
  Proof.
    intros W V E h' s1. pose proof (s_status_votes h e ss frm s V E) as V1. split; [exact V1|].
    destruct (s_status_fields e ss frm s) as (Fn & _). fold s1 in V1, Fn. fold h' in V1.
    assert (Q : q s1 = q s) by (unfold q; rewrite Fn; reflexivity). rewrite <- Q.
    assert (ST : step s (e, OStatus ss frm) = if negb (is_catchup_needed s1) then finish_no_catchup lid e s1 else s1).
    { cbn [ConsProof_Model.step]. unfold process_ledger_status. unfold not_newer in E. apply andb_true_iff in E as (E1 & E2). rewrite E1, W.
      cbn [negb]. apply Nat.leb_le in E2. destruct (Nat.ltb_spec (e_seqNo e) (ls_size ss)); [lia|]. reflexivity. }
    rewrite ST. destruct (is_catchup_needed s1) eqn:D; cbn [negb].
    - right. split; [|reflexivity]. rewrite <- (not_needed h' s1 V1). congruence.
    - left. split; [|reflexivity]. apply (not_needed h' s1 V1). exact D.
  Qed.

  Definition s_asked (e : env) (s : st) : st := fst (try_asking e s).
  Definition s_sched (s : st) : st := if should_schedule s then with_timers false false true s else s.
  Lemma s_asked_fields e s : let s1 := s_asked e s in
    k_n s1 = k_n s /\ k_working s1 = k_working s /\ k_same s1 = k_same s /\ k_proofs s1 = k_proofs s /\ k_keys s1 = k_keys s /\
    k_tstatus s1 = k_tstatus s /\ k_tproof s1 = k_tproof s /\ k_pending s1 = k_pending s.
  Proof.
    unfold s_asked, try_asking. destruct (k_asked s); [cbn; auto 10|]. destruct (_ <? _); [cbn; auto 10|].
    destruct (nth_error _ _); [|cbn; auto 10]. destruct (_ <=? _); cbn; auto 10.
  Qed.
  Lemma s_sched_fields s : let s1 := s_sched s in
    k_n s1 = k_n s /\ k_working s1 = k_working s /\ k_same s1 = k_same s /\ k_proofs s1 = k_proofs s /\ k_keys s1 = k_keys s /\
    k_asked s1 = k_asked s /\ k_log s1 = k_log s.
  Proof. unfold s_sched. destruct (should_schedule s); cbn; auto 10. Qed.

  Lemma proof_step h e c frm s : k_working s = true -> Votes h s -> usable lid e c = true ->
    let h' := h ++ [(e, OProof c frm)] in let s1 := s_proof c frm s in let s3 := s_sched (s_asked e s1) in
    Votes h' s1 /\ Votes h' s3 /\
    ((at_least (ledger_status (q s)) (fun m => confirmed m h' = true) /\ step s (e, OProof c frm) = finish_no_catchup lid e s1) \/
     (~ at_least (ledger_status (q s)) (fun m => confirmed m h' = true) /\
      match latest_reliable e s3 (fst (group (k_proofs s3))) with
      | Some cp => step s (e, OProof c frm) = finish (Some cp) s3
      | None => step s (e, OProof c frm) = s3
      end)).
  Proof.
    intros W V E h' s1 s3. pose proof (s_proof_votes h e c frm s V E) as V1. fold h' s1 in V1. split; [exact V1|].
    destruct (s_asked_fields e s1) as (G1 & G2 & G3 & G4 & G5 & G6 & G7 & G8).
    destruct (s_sched_fields (s_asked e s1)) as (F1 & F2 & F3 & F4 & F5 & F6 & F7). fold s3 in F1, F2, F3, F4, F5, F6, F7.
    assert (V3 : Votes h' s3) by (apply (votes_same_fields h' s1); [congruence| | |exact V1]; congruence).
    split; [exact V3|].
    assert (Q1 : q s1 = q s) by reflexivity. assert (Q3 : q s3 = q s1) by (unfold q; rewrite F1, G1; reflexivity).
    assert (P : 0 < length (k_proofs s1)).
    { cbn. destruct (k_proofs s) as [|(m, v) d]; cbn; [lia|]. destruct (frm =? m); cbn; lia. }
    assert (ST : step s (e, OProof c frm) = if negb (is_catchup_needed s1) then finish_no_catchup lid e s1 else
      match get_cons_proof_for_catchup e s3 with None => s3 | Some cp => finish (Some cp) s3 end).
    { cbn [ConsProof_Model.step]. unfold process_consistency_proof. unfold usable in E. rewrite !andb_true_iff in E. destruct E as ((E1 & E2) & E3). rewrite E1, W.
      cbn [negb]. apply Nat.leb_le in E2. apply Nat.ltb_lt in E3. destruct (Nat.ltb_spec (e_size e) (c_start c)); [lia|].
      destruct (Nat.leb_spec (c_end c) (c_start c)); [lia|]. fold (s_proof c frm s). fold s1. destruct (negb (is_catchup_needed s1)); [reflexivity|].
      assert (T : try_asking e s1 = (s_asked e s1, Ok tt)).
      { unfold s_asked. destruct (try_asking_cases e s1 P) as [(T & _)|(_ & _ & b & _ & _ & _ & T)]; rewrite T; reflexivity. }
      rewrite T. reflexivity. }
    rewrite ST, <- Q1. destruct (is_catchup_needed s1) eqn:D; cbn [negb].
    - right. split; [rewrite <- (not_needed h' s1 V1); congruence|].
      unfold get_cons_proof_for_catchup. destruct (is_reached (consistency_proof (q s3)) (length (k_proofs s3))) eqn:R; cbn [negb].
      + destruct (latest_reliable e s3 (fst (group (k_proofs s3)))); reflexivity.
      + destruct (latest_reliable e s3 (fst (group (k_proofs s3)))) as [cp|] eqn:LR; [|reflexivity]. exfalso.
        destruct (latest_some e s3 _ (somes (k_proofs s3)) cp (proj1 (group_ok _)) LR) as (_ & X & _).
        unfold is_reached in R. apply Nat.leb_gt in R.
        assert (Y : forall d, occ cp (somes d) <= length d).
        { intros d. rewrite occ_holding. apply filter_le. }
        specialize (Y (k_proofs s3)). unfold q, Quorums in *. cbn in X, R. lia.
    - left. split; [|reflexivity]. apply (not_needed h' s1 V1). exact D.
  Qed.

  (** all other steps count nothing and start nothing *)
  Definition counted (s : st) (x : env * op) : bool :=
    match x with
    | (e, OStatus ss _) => k_working s && not_newer lid e ss
    | (e, OProof c _) => k_working s && usable lid e c
    | _ => false
    end.
  Lemma other_step s x : counted s x = false -> match snd x with OStart _ => False | _ => True end ->
    let s' := step s x in
    k_n s' = k_n s /\ k_working s' = k_working s /\ k_same s' = k_same s /\ k_proofs s' = k_proofs s /\ k_keys s' = k_keys s /\
    k_tstatus s' = k_tstatus s /\ k_asked s' = k_asked s /\ exists l, k_log s' = k_log s ++ l /\ Forall no_start l.
  Proof.
    destruct x as (e, [r|ss frm|c frm| | |]); intros C NS; cbn [snd] in NS; [destruct NS| | | | |]; cbn [ConsProof_Model.step counted] in *.
    - unfold process_ledger_status. destruct (ls_ledger ss =? lid) eqn:E1; cbn [negb]; [|cbn; repeat (split; [reflexivity|]); exists []; rewrite app_nil_r; auto].
      destruct (k_working s) eqn:W; cbn [negb]; [|cbn; rewrite W; repeat (split; [reflexivity|]); exists []; rewrite app_nil_r; auto].
      cbn [andb] in C. unfold not_newer in C. rewrite E1 in C. cbn [andb] in C. apply Nat.leb_gt in C.
      destruct (Nat.ltb_spec (e_seqNo e) (ls_size ss)); [|lia]. cbn. rewrite W. repeat (split; [reflexivity|]). eexists. split; [reflexivity|].
      repeat constructor.
    - unfold process_consistency_proof. destruct (c_ledger c =? lid) eqn:E1; cbn [negb]; [|cbn; repeat (split; [reflexivity|]); exists []; rewrite app_nil_r; auto].
      destruct (k_working s) eqn:W; cbn [negb]; [|cbn; rewrite W; repeat (split; [reflexivity|]); exists []; rewrite app_nil_r; auto].
      cbn [andb] in C. unfold usable in C. rewrite E1 in C. cbn [andb] in C.
      destruct (Nat.ltb_spec (e_size e) (c_start c)).
      { cbn. rewrite W. repeat (split; [reflexivity|]). eexists. split; [reflexivity|]. repeat constructor. }
      destruct (Nat.leb_spec (c_start c) (e_size e)); [|lia]. cbn [andb] in C. apply Nat.ltb_ge in C.
      destruct (Nat.leb_spec (c_end c) (c_start c)); [|lia].
      cbn. rewrite W. repeat (split; [reflexivity|]). eexists. split; [reflexivity|]. repeat constructor.
    - destruct (k_tstatus s) eqn:T; cbn; rewrite ?T; repeat (split; [reflexivity|]); [eexists; split; [reflexivity|repeat constructor]|].
      exists []. rewrite app_nil_r. auto.
    - destruct (k_tproof s) eqn:T; cbn; rewrite ?T; repeat (split; [reflexivity|]); [eexists; split; [reflexivity|repeat constructor]|].
      exists []. rewrite app_nil_r. auto.
    - destruct (k_pending s) eqn:T; [|cbn; repeat (split; [reflexivity|]); exists []; rewrite app_nil_r; auto].
      unfold request_CPs_if_needed. remember (with_timers (k_tstatus s) (k_tproof s) false s) as s0 eqn:E0.
      assert (X : k_n s0 = k_n s /\ k_working s0 = k_working s /\ k_same s0 = k_same s /\ k_proofs s0 = k_proofs s /\ k_keys s0 = k_keys s /\
        k_tstatus s0 = k_tstatus s /\ k_asked s0 = k_asked s /\ exists l, k_log s0 = k_log s ++ l /\ Forall no_start l).
      { subst s0. cbn. repeat (split; [reflexivity|]). exists []. rewrite app_nil_r. auto. }
      clear E0.
      assert (Y : forall y, no_start y -> k_n (emit y s0) = k_n s /\ k_working (emit y s0) = k_working s /\ k_same (emit y s0) = k_same s /\
        k_proofs (emit y s0) = k_proofs s /\ k_keys (emit y s0) = k_keys s /\
        k_tstatus (emit y s0) = k_tstatus s /\ k_asked (emit y s0) = k_asked s /\ exists l, k_log (emit y s0) = k_log s ++ l /\ Forall no_start l).
      { intros y N. destruct X as (X1 & X2 & X3 & X4 & X5 & X6 & X7 & l & X8 & X9). cbn.
        repeat (split; [assumption|]). exists (l ++ [y]). rewrite X8, app_assoc. split; [reflexivity|].
        apply Forall_app. auto. }
      destruct (negb (k_working s0)); [exact X|]. destruct (length (k_proofs s0) =? 0); [exact X|].
      destruct (negb (is_catchup_needed s0)); [exact X|]. destruct (group (k_proofs s0)) as (gs, nulls).
      destruct (_ || _); [exact X|]. destruct (latest_reliable e s0 gs); [exact X|]. destruct (request_params e gs) as [(a, b)|]; apply Y; exact I.
  Qed.

  Lemma finish_fields c s : k_n (finish c s) = k_n s /\ k_working (finish c s) = false.
  Proof. auto. Qed.
  Lemma finish_none_fields e s : k_n (finish_no_catchup lid e s) = k_n s /\ k_working (finish_no_catchup lid e s) = false.
  Proof. unfold finish_no_catchup. destruct (get_last_txn_3PC_key s) as [(v, p)|]; auto. Qed.

  Lemma uncounted_votes h s x : k_working s = true -> counted s x = false -> match snd x with OStart _ => False | _ => True end ->
    Votes h s -> Votes (h ++ [x]) s.
  Proof.
    intros W C NS V. destruct x as (e, [r|ss frm|c frm| | |]); cbn [snd] in NS; [destruct NS| | | | |]; cbn [counted] in C; rewrite ?W in C; cbn [andb] in C.
    - apply votes_word; [| | |exact V].
      + intros m v. cbn [word]. rewrite C, andb_false_r. reflexivity.
      + intros m v. cbn [conf]. rewrite C, andb_false_r. apply orb_false_r.
      + intros m v. cbn [keyed]. unfold not_newer in C. destruct (ls_ledger ss =? lid); cbn [andb] in C; [|rewrite andb_false_r; reflexivity].
        apply Nat.leb_gt in C. destruct (Nat.eqb_spec (ls_size ss) (e_seqNo e)); [lia|]. rewrite andb_false_r. reflexivity.
    - apply votes_word; [| | |exact V]; [|reflexivity|reflexivity]. intros m v. cbn [word]. rewrite C, andb_false_r. reflexivity.
    - apply votes_word; try reflexivity. exact V.
    - apply votes_word; try reflexivity. exact V.
    - apply votes_word; try reflexivity. exact V.
  Qed.

  Lemma start_fields e r s : let s' := start e r s in
    k_n s' = length (e_names e) /\ k_working s' = true /\ k_same s' = [] /\ k_proofs s' = [] /\ k_keys s' = [] /\
    k_tstatus s' = true /\ k_asked s' = false /\ k_log s' = k_log s ++ if r then [LAskStatus None] else [].
  Proof. unfold start. destruct r; cbn; rewrite ?app_nil_r; auto 10. Qed.

  Lemma counted_inv s x : counted s x = true -> k_working s = true /\
    ((exists e ss frm, x = (e, OStatus ss frm) /\ not_newer lid e ss = true) \/ (exists e c frm, x = (e, OProof c frm) /\ usable lid e c = true)).
  Proof.
    destruct x as (e, [r|ss frm|c frm| | |]); cbn; try discriminate; intros C; apply andb_true_iff in C as (W & C); (split; [exact W|]).
    - left. exists e, ss, frm. auto.
    - right. exists e, c, frm. auto.
  Qed.

  Lemma inv_step n h s x : Inv n h s -> Inv n (h ++ [x]) (step s x).
  Proof.
    intros (IN & IV). unfold Inv. rewrite pool_snoc.
    destruct (match x with (_, OStart _) => true | _ => false end) eqn:IS.
    - destruct x as (e, [r| | | | |]); try discriminate. cbn [ConsProof_Model.step].
      destruct (start_fields e r s) as (S1 & S2 & S3 & S4 & S5 & _). split; [exact S1|]. intros _.
      unfold Votes. rewrite S3, S4, S5. cbn. split; [constructor|]. split; [constructor|]. split; [constructor|].
      split; [intros m; rewrite last_word_snoc; reflexivity|].
      split; [intros m; rewrite confirmed_snoc; cbn; intuition congruence|]. intros m; rewrite last_key_snoc; reflexivity.
    - assert (NS : match snd x with OStart _ => False | _ => True end) by (destruct x as (e, []); cbn in *; congruence || exact I).
      assert (PN : match x with (e, OStart _) => length (e_names e) | _ => pool n h end = pool n h) by (destruct x as (e, []); cbn in *; congruence || reflexivity).
      rewrite PN. destruct (counted s x) eqn:C.
      + destruct (counted_inv s x C) as (W & [(e & ss & frm & -> & E)|(e & c & frm & -> & E)]).
        * destruct (status_step h e ss frm s W (IV W) E) as (V1 & [(_ & ->)|(_ & ->)]).
          -- destruct (finish_none_fields e (s_status e ss frm s)) as (X1 & X2). rewrite X1, X2.
             rewrite (proj1 (s_status_fields e ss frm s)). split; [exact IN|discriminate].
          -- rewrite (proj1 (s_status_fields e ss frm s)). split; [exact IN|]. intros _. exact V1.
        * destruct (proof_step h e c frm s W (IV W) E) as (V1 & V3 & [(_ & ->)|(_ & X)]).
          -- destruct (finish_none_fields e (s_proof c frm s)) as (X1 & X2). rewrite X1, X2. split; [exact IN|discriminate].
          -- assert (N3 : k_n (s_sched (s_asked e (s_proof c frm s))) = k_n s).
             { rewrite (proj1 (s_sched_fields _)), (proj1 (s_asked_fields _ _)). reflexivity. }
             destruct (latest_reliable _ _ _) in X; rewrite X; [rewrite (proj1 (finish_fields _ _)), (proj2 (finish_fields _ _)); split; [congruence|discriminate]|].
             split; [congruence|]. intros _. exact V3.
      + destruct (other_step s x C NS) as (O1 & O2 & O3 & O4 & O5 & _). split; [congruence|]. intros W. rewrite O2 in W.
        apply (votes_same_fields _ s); try assumption. apply uncounted_votes; auto.
  Qed.
  Lemma inv_run n h : Inv n h (run h (init n)).
  Proof.
    induction h as [|x h IH] using rev_ind; [split; [reflexivity|discriminate]|]. rewrite run_snoc. apply inv_step. exact IH.
  Qed.
End History.
