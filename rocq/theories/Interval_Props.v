(** Property C34: IntervalList / OrderedTracker are finite sets. *)
From Coq Require Import List ZArith Bool Lia ZifyBool Permutation.
From Verif Require Import Interval_Model.
Import ListNotations.
Local Open Scope Z_scope.

(** ** Normal form: increasing, non-adjacent, non-empty intervals *)
Fixpoint wf (l : ilist) : Prop :=
  match l with
  | [] => True
  | i :: r => fst i <= snd i /\ (match r with [] => True | j :: _ => snd i + 1 < fst j end) /\ wf r
  end.

Definition mem (x : Z) (l : ilist) : Prop := exists i, In i l /\ fst i <= x <= snd i.

Lemma contains_mem x l : il_contains x l = true <-> mem x l.
Proof.
  unfold il_contains, mem. rewrite existsb_exists. split; intros (i & H & E); exists i; split; auto; lia.
Qed.
Lemma mem_nil x : mem x [] <-> False.
Proof. unfold mem. split; [intros (i & [] & _)|tauto]. Qed.
Lemma mem_cons x i l : mem x (i :: l) <-> fst i <= x <= snd i \/ mem x l.
Proof.
  unfold mem. split.
  - intros (j & [->|Hj] & E); [left; auto|right; eauto].
  - intros [E|(j & Hj & E)]; [exists i|exists j]; simpl; auto.
Qed.

Lemma wf_lower i l x : wf (i :: l) -> mem x l -> snd i + 1 < x.
Proof.
  revert i. induction l as [|j l IH]; intros i W M; [apply mem_nil in M; destruct M|].
  destruct W as (W1 & W2 & W3). apply mem_cons in M as [M|M]; [lia|].
  pose proof (IH j W3 M). destruct W3 as (W3 & _). lia.
Qed.

Lemma loop_ok item : forall rest prev, wf (prev :: rest) -> snd prev < item ->
  let r := add_loop item prev rest in
  wf r /\ (forall x, mem x r <-> x = item \/ mem x (prev :: rest)) /\
  (exists h t, r = h :: t /\ fst h = fst prev).
Proof.
  induction rest as [|next tl IH]; intros prev W L; cbn zeta; simpl add_loop.
  - destruct W as (W1 & _ & _).
    destruct (Z.eqb_spec item (snd prev + 1)) as [->|N].
    + split; [simpl; repeat split; lia|]. split; [|eauto].
      intros x. rewrite !mem_cons, !mem_nil. simpl. lia.
    + split; [simpl; repeat split; lia|]. split; [|eauto].
      intros x. rewrite !mem_cons, !mem_nil. simpl. lia.
  - assert (W0 := W). destruct W as (W1 & W2 & W3). assert (W4 := W3). destruct W3 as (V1 & V2 & V3).
    destruct (Z.eqb_spec item (snd prev + 1)) as [->|N].
    + destruct (Z.eqb_spec (snd prev + 1) (fst next - 1)) as [E|E].
      * split; [|split; [|eauto]].
        -- simpl. repeat split; auto; lia. 
        -- intros x. rewrite !mem_cons. simpl. split; intros H; [destruct H; [|tauto]|]; try lia.
           destruct H as [->|[H|[H|H]]]; [left|left|left|tauto]; lia.
      * split; [|split; [|eauto]].
        -- simpl. repeat split; auto; lia.
        -- intros x. rewrite !mem_cons. simpl.
           assert (fst prev <= x <= snd prev + 1 <-> x = snd prev + 1 \/ fst prev <= x <= snd prev) by lia.
           tauto.
    + destruct ((snd prev + 1 <? item) && (item <? fst next - 1)) eqn:E1.
      { split; [|split; [|eauto]].
        - simpl. repeat split; auto; lia.
        - intros x. rewrite !mem_cons. simpl. assert (item <= x <= item <-> x = item) by lia. tauto. }
      destruct (Z.eqb_spec item (fst next - 1)) as [->|E2].
      { split; [|split; [|eauto]].
        - simpl. repeat split; auto; lia.
        - intros x. rewrite !mem_cons. simpl.
          assert (fst next - 1 <= x <= snd next <-> x = fst next - 1 \/ fst next <= x <= snd next) by lia. tauto. }
      destruct ((fst next <=? item) && (item <=? snd next)) eqn:E3.
      { split; auto. split; [|eauto]. intros x. rewrite !mem_cons. split; [tauto|].
        intros [->|H]; [right; left; lia|tauto]. }
      specialize (IH next W4 ltac:(lia)). cbn zeta in IH. destruct IH as (I1 & I2 & (h & t & I3 & I4)).
      split; [|split; [|eauto]].
      * rewrite I3 in *. cbn [wf]. split; auto. split; [lia|]. exact I1.
      * intros x. rewrite mem_cons, I2, !mem_cons. tauto.
Qed.

Lemma add_wf_mem item l : wf l ->
  wf (il_add item l) /\ forall x, mem x (il_add item l) <-> x = item \/ mem x l.
Proof.
  intros W. destruct l as [|f r]; simpl il_add.
  - split; [simpl; repeat split; lia|]. intros x. rewrite mem_cons, !mem_nil. simpl. lia.
  - assert (W0 := W). destruct W as (W1 & W2 & W3).
    destruct (Z.ltb_spec item (fst f - 1)).
    { split; [simpl; repeat split; auto; lia|]. intros x. rewrite !mem_cons. simpl.
      assert (item <= x <= item <-> x = item) by lia. tauto. }
    destruct (Z.eqb_spec item (fst f - 1)) as [->|E].
    { split; [simpl; repeat split; auto; lia|]. intros x. rewrite !mem_cons. simpl.
      assert (fst f - 1 <= x <= snd f <-> x = fst f - 1 \/ fst f <= x <= snd f) by lia. tauto. }
    destruct ((fst f <=? item) && (item <=? snd f)) eqn:E2.
    { split; auto. intros x. rewrite !mem_cons. split; [tauto|]. intros [->|H']; [left; lia|tauto]. }
    destruct (loop_ok item r f W0 ltac:(lia)) as (A & B & _). auto.
Qed.

Definition il_of (items : list Z) : ilist := fold_left (fun l x => il_add x l) items [].

Lemma fold_ok items : forall l, wf l ->
  let r := fold_left (fun l x => il_add x l) items l in
  wf r /\ forall x, mem x r <-> In x items \/ mem x l.
Proof.
  induction items as [|a items IH]; intros l W; cbn zeta; simpl.
  - split; auto. tauto.
  - destruct (add_wf_mem a l W) as [A B]. destruct (IH _ A) as [C D]. split; auto.
    intros x. rewrite D, B. intuition.
Qed.

Lemma of_ok items : wf (il_of items) /\ forall x, mem x (il_of items) <-> In x items.
Proof.
  destruct (fold_ok items [] I) as [A B]. split; auto. intros x. unfold il_of. rewrite B, mem_nil. tauto.
Qed.

(** ** Length: the number of members *)
Fixpoint elems (l : ilist) : list Z :=
  match l with
  | [] => []
  | i :: r => map (fun k => fst i + Z.of_nat k) (seq 0 (Z.to_nat (snd i - fst i + 1))) ++ elems r
  end.

Lemma elems_In x l : In x (elems l) <-> mem x l.
Proof.
  induction l as [|i l IH]; simpl; [rewrite mem_nil; tauto|].
  rewrite in_app_iff, IH, mem_cons, in_map_iff.
  split; (intros [H|H]; [left|right; auto]).
  - destruct H as (k & <- & H). apply in_seq in H. lia.
  - exists (Z.to_nat (x - fst i)). split; [lia|]. apply in_seq. lia.
Qed.

Lemma elems_NoDup l : wf l -> NoDup (elems l).
Proof.
  induction l as [|i l IH]; intros W; simpl; [constructor|].
  assert (W0 := W). destruct W as (W1 & W2 & W3). specialize (IH W3).
  assert (ND : NoDup (map (fun k => fst i + Z.of_nat k) (seq 0 (Z.to_nat (snd i - fst i + 1))))).
  { apply FinFun.Injective_map_NoDup; [intros a b; lia|apply seq_NoDup]. }
  assert (DJ : forall x, In x (map (fun k => fst i + Z.of_nat k) (seq 0 (Z.to_nat (snd i - fst i + 1)))) -> ~ In x (elems l)).
  { intros x Hx Hl. apply elems_In in Hl. pose proof (wf_lower i l x W0 Hl).
    apply in_map_iff in Hx as (k & <- & Hk). apply in_seq in Hk. lia. }
  revert ND DJ. generalize (map (fun k => fst i + Z.of_nat k) (seq 0 (Z.to_nat (snd i - fst i + 1)))).
  intros m ND DJ. induction m as [|a m IHm]; simpl; auto. inversion ND; subst.
  constructor.
  - rewrite in_app_iff. intros [|Q]; [auto|]. eapply DJ; [left; reflexivity|exact Q].
  - apply IHm; auto. intros x Hx. apply DJ. right. auto.
Qed.

Lemma elems_length l : wf l -> Z.of_nat (length (elems l)) = il_len l.
Proof.
  induction l as [|i l IH]; intros W; simpl; auto. destruct W as (W1 & _ & W3).
  rewrite app_length, map_length, seq_length. specialize (IH W3). unfold il_len in *. simpl. lia.
Qed.

(** ** Normal forms are unique *)
Lemma wf_ext : forall a b, wf a -> wf b -> (forall x, mem x a <-> mem x b) -> a = b.
Proof.
  induction a as [|[l1 h1] a IH]; intros [|[l2 h2] b] Wa Wb E; auto.
  - exfalso. destruct Wb as (W & _). simpl in W. apply (mem_nil l2). apply E. apply mem_cons. simpl. lia.
  - exfalso. destruct Wa as (W & _). simpl in W. apply (mem_nil l1). apply E. apply mem_cons. simpl. lia.
  - assert (Wa0 := Wa). assert (Wb0 := Wb).
    destruct Wa as (A1 & A2 & A3). destruct Wb as (B1 & B2 & B3). simpl in A1, A2, B1, B2.
    assert (L1 : forall x, mem x a -> h1 + 1 < x) by (intros x Hx; apply (wf_lower _ _ _ Wa0 Hx)).
    assert (L2 : forall x, mem x b -> h2 + 1 < x) by (intros x Hx; apply (wf_lower _ _ _ Wb0 Hx)).
    assert (E' : forall x, (l1 <= x <= h1 \/ mem x a) <-> (l2 <= x <= h2 \/ mem x b)).
    { intros x. specialize (E x). rewrite !mem_cons in E. exact E. }
    assert (l1 = l2).
    { destruct (proj1 (E' l1) ltac:(lia)) as [Q|Q]; destruct (proj2 (E' l2) ltac:(lia)) as [R|R];
        try (specialize (L1 _ R)); try (specialize (L2 _ Q)); lia. }
    subst l2.
    assert (h1 = h2).
    { destruct (Z.lt_trichotomy h1 h2) as [Q|[Q|Q]]; auto; exfalso.
      - destruct (proj2 (E' (h1 + 1)) ltac:(lia)) as [R|R]; [lia|]. specialize (L1 _ R). lia.
      - destruct (proj1 (E' (h2 + 1)) ltac:(lia)) as [R|R]; [lia|]. specialize (L2 _ R). lia. }
    subst h2. f_equal. apply IH; auto.
    intros x. specialize (E' x). split; intros M.
    + destruct (proj1 E' (or_intror M)) as [Q|Q]; auto. specialize (L1 _ M). lia.
    + destruct (proj2 E' (or_intror M)) as [Q|Q]; auto. specialize (L2 _ M). lia.
Qed.

Lemma il_eqb_eq : forall a b, il_eqb a b = true <-> a = b.
Proof.
  induction a as [|[x1 y1] a IH]; intros [|[x2 y2] b]; simpl; split; intros H; try discriminate; auto.
  - apply andb_true_iff in H as [H Hr]. apply IH in Hr. subst. f_equal. f_equal; lia.
  - inversion H; subst. rewrite !Z.eqb_refl. simpl. apply IH. auto.
Qed.

(** ** C34, IntervalList: built by any sequence of [add]s, it answers membership and length as
    the set of the added items does, and equality decides set equality. *)
Theorem C34_interval_list_is_set : forall items,
  (forall x, il_contains x (il_of items) = true <-> In x items) /\
  il_len (il_of items) = Z.of_nat (length (nodup Z.eq_dec items)).
Proof.
  intros items. destruct (of_ok items) as [W M]. split.
  - intros x. rewrite contains_mem. apply M.
  - rewrite <- elems_length by exact W. f_equal. apply Permutation_length.
    apply NoDup_Permutation; [apply elems_NoDup; exact W|apply NoDup_nodup|].
    intros x. rewrite elems_In, M, nodup_In. tauto.
Qed.

Theorem C34_interval_list_eq : forall items1 items2,
  il_eqb (il_of items1) (il_of items2) = true <-> (forall x, In x items1 <-> In x items2).
Proof.
  intros a b. destruct (of_ok a) as [Wa Ma], (of_ok b) as [Wb Mb]. rewrite il_eqb_eq. split.
  - intros E x. rewrite <- Ma, <- Mb, E. tauto.
  - intros E. apply wf_ext; auto. intros x. rewrite Ma, Mb. auto.
Qed.

Example ex_C34_interval_list :
  il_of [5; 1; 3; 2; 9; 8; 3; 12; 10; 11; 4] = [(1, 5); (8, 12)] /\
  il_len (il_of [5; 1; 3; 2; 9; 8; 3; 12; 10; 11; 4]) = 10 /\
  il_of [3; 2; 1; 5; 4; 12; 11; 10; 9; 8] = il_of [5; 1; 3; 2; 9; 8; 3; 12; 10; 11; 4] /\
  il_contains 6 (il_of [5; 1; 3; 2; 9; 8; 3; 12; 10; 11; 4]) = false.
Proof. vm_compute. repeat split. Qed.

(** ** OrderedTracker *)
Inductive top := TAdd (v x : Z) | TContains (v x : Z) | TClear (v : Z).

Definition tstep (t : tracker) (o : top) : tracker :=
  match o with
  | TAdd v x => tr_add v x t
  | TContains v x => snd (tr_contains v x t)
  | TClear v => tr_clear_below v t
  end.
(** The set the tracker stands for: (view, pp_seq_no) pairs, newest first. *)
Definition sstep (s : list (Z * Z)) (o : top) : list (Z * Z) :=
  match o with
  | TAdd v x => (v, x) :: s
  | TContains _ _ => s
  | TClear v => filter (fun p => negb (fst p <? v)) s
  end.
Definition trun (os : list top) : tracker := fold_left tstep os [].
Definition srun (os : list top) : list (Z * Z) := fold_left sstep os [].

Definition in_view (v : Z) (s : list (Z * Z)) : list Z :=
  map snd (filter (fun p => fst p =? v) s).

Lemma in_view_In v x s : In x (in_view v s) <-> In (v, x) s.
Proof.
  unfold in_view. rewrite in_map_iff. split.
  - intros ([w y] & <- & H). apply filter_In in H as [H E]. simpl in *. assert (w = v) by lia. subst. auto.
  - intros H. exists (v, x). split; auto. apply filter_In. simpl. split; auto. lia.
Qed.

Definition TInv (t : tracker) (s : list (Z * Z)) : Prop :=
  NoDup (map fst t) /\
  (forall v l, In (v, l) t -> wf l /\ forall x, mem x l <-> In (v, x) s) /\
  (forall v x, In (v, x) s -> In v (map fst t)).

Lemma find_In v t l : tr_find v t = Some l -> In (v, l) t.
Proof.
  induction t as [|[w m] t IH]; simpl; [discriminate|]. destruct (Z.eqb_spec w v) as [->|]; intros E.
  - inversion E. auto.
  - auto.
Qed.
Lemma find_None v t : tr_find v t = None -> ~ In v (map fst t).
Proof.
  induction t as [|[w m] t IH]; simpl; [tauto|]. destruct (Z.eqb_spec w v) as [->|]; [discriminate|].
  intros E [|]; auto. apply IH in E. auto.
Qed.
Lemma In_find v l t : NoDup (map fst t) -> In (v, l) t -> tr_find v t = Some l.
Proof.
  induction t as [|[w m] t IH]; simpl; [tauto|]. intros ND [E|E].
  - inversion E. subst. rewrite Z.eqb_refl. auto.
  - inversion ND; subst. destruct (Z.eqb_spec w v) as [->|]; auto.
    exfalso. apply H1. apply in_map_iff. exists (v, l). auto.
Qed.
Lemma put_keys v l t x : In x (map fst (tr_put v l t)) <-> x = v \/ In x (map fst t).
Proof.
  induction t as [|[w m] t IH]; simpl; [intuition|].
  destruct (Z.eqb_spec w v) as [->|]; simpl; [intuition|]. rewrite IH. intuition.
Qed.
Lemma put_NoDup v l t : NoDup (map fst t) -> NoDup (map fst (tr_put v l t)).
Proof.
  induction t as [|[w m] t IH]; simpl; intros ND; [repeat constructor; auto|].
  inversion ND; subst. destruct (Z.eqb_spec w v) as [->|]; simpl; [auto|].
  constructor; auto. rewrite put_keys. intros [|]; auto.
Qed.
Lemma put_In v l t w m : NoDup (map fst t) ->
  (In (w, m) (tr_put v l t) <-> (w = v /\ m = l) \/ (w <> v /\ In (w, m) t)).
Proof.
  induction t as [|[u k] t IH]; simpl; intros ND.
  - split; [intros [E|[]]; inversion E; auto|intros [[-> ->]|[_ []]]; auto].
  - inversion ND; subst. specialize (IH H2).
    assert (NI : forall k', ~ In (u, k') t).
    { intros k' Hk. apply H1. apply in_map_iff. exists (u, k'). auto. }
    destruct (Z.eqb_spec u v) as [->|]; simpl.
    + split.
      * intros [E|E]; [inversion E; auto|]. right. split; [|auto]. intros ->. eapply NI; eauto.
      * intros [[-> ->]|[N [E|E]]]; [auto| |auto]. inversion E. congruence.
    + rewrite IH. split.
      * intros [E|[E|E]]; [inversion E; subst; auto|auto|]. intuition.
      * intros [E|[N [E|E]]]; auto.
Qed.

Lemma TInv_step t s o : TInv t s -> TInv (tstep t o) (sstep s o).
Proof.
  intros (I1 & I2 & I3). destruct o as [v x|v x|v]; cbn [tstep sstep].
  - assert (G : exists l, fst (tr_get v t) = l /\ wf l /\ (forall y, mem y l <-> In (v, y) s) /\
      NoDup (map fst (snd (tr_get v t))) /\
      (forall w m, w <> v -> (In (w, m) (snd (tr_get v t)) <-> In (w, m) t)) /\
      (forall w, In w (map fst (snd (tr_get v t))) <-> w = v \/ In w (map fst t))).
    { unfold tr_get. destruct (tr_find v t) as [l|] eqn:E; cbn [fst snd].
      - apply find_In in E. destruct (I2 _ _ E) as [W M]. exists l. repeat split; auto; try tauto; try (apply M).
        intros [->|H]; auto. apply in_map_iff. exists (v, l). auto.
      - apply find_None in E. exists []. split; auto. split; [exact I|]. split.
        { intros y. rewrite mem_nil. split; [tauto|]. intros H. apply E. eapply I3; eauto. }
        split; [apply put_NoDup; auto|]. split.
        { intros w m N. rewrite put_In by auto. intuition. }
        intros w. apply put_keys. }
    destruct G as (l & G1 & G2 & G3 & G4 & G5 & G6).
    unfold tr_add. destruct (tr_get v t) as [l' t'] eqn:E. cbn [fst snd] in *. subst l'.
    destruct (add_wf_mem x l G2) as [A B].
    split; [apply put_NoDup; auto|]. split.
    + intros w m H. apply put_In in H; auto. destruct H as [[-> ->]|[N H]].
      * split; auto. intros y. rewrite B, G3. simpl. split; intros [H|H]; subst; auto.
        inversion H. auto.
      * apply G5 in H; auto. destruct (I2 _ _ H) as [W M]. split; auto.
        intros y. rewrite M. simpl. split; auto. intros [Q|Q]; auto. inversion Q. congruence.
    + intros w y [H|H]; apply put_keys.
      * inversion H. auto.
      * right. apply G6. right. eauto.
  - unfold tr_contains, tr_get. destruct (tr_find v t) as [l|] eqn:E; cbn [fst snd]; [split; auto|].
    apply find_None in E. split; [apply put_NoDup; auto|]. split.
    + intros w m H. apply put_In in H; auto. destruct H as [[-> ->]|[N H]]; auto.
      split; [exact I|]. intros y. rewrite mem_nil. split; [tauto|]. intros H. apply E. eauto.
    + intros w y H. apply put_keys. right. eauto.
  - unfold tr_clear_below. split; [|split].
    + clear -I1. induction t as [|[w m] t IH]; simpl; auto. inversion I1; subst.
      destruct (negb (w <? v)); simpl; auto. constructor; auto.
      intros H. apply H1. apply in_map_iff in H as (p & <- & H). apply filter_In in H. apply in_map. apply H.
    + intros w m H. apply filter_In in H as [H N]. simpl in N. destruct (I2 _ _ H) as [W M]. split; auto.
      intros y. rewrite M, filter_In. simpl. intuition.
    + intros w y H. apply filter_In in H as [H N]. simpl in N. apply I3 in H.
      apply in_map_iff in H as ([w' m] & <- & H). simpl in *. apply in_map_iff. exists (w', m).
      split; auto. apply filter_In. auto.
Qed.

Lemma TInv_run os : TInv (trun os) (srun os).
Proof.
  unfold trun, srun.
  assert (H : TInv [] []) by (split; [constructor|split; [intros v l []|intros v x []]]).
  revert H. generalize (@nil (Z * ilist)), (@nil (Z * Z)).
  induction os as [|o os IH]; intros t s H; simpl; auto. apply IH. apply TInv_step. auto.
Qed.

(** Membership and length of an OrderedTracker after any sequence of operations. *)
Theorem C34_tracker_contains : forall os v x,
  fst (tr_contains v x (trun os)) = true <-> In (v, x) (srun os).
Proof.
  intros os v x. destruct (TInv_run os) as (I1 & I2 & I3).
  unfold tr_contains, tr_get. destruct (tr_find v (trun os)) as [l|] eqn:E; cbn [fst].
  - apply find_In in E. destruct (I2 _ _ E) as [_ M]. rewrite contains_mem. apply M.
  - apply find_None in E. simpl. split; [discriminate|]. intros H. exfalso. apply E. eauto.
Qed.

Lemma pair_dec (p q : Z * Z) : {p = q} + {p <> q}.
Proof. decide equality; apply Z.eq_dec. Defined.

Lemma NoDup_app_disj {A} (a b : list A) : NoDup a -> NoDup b -> (forall x, In x a -> ~ In x b) -> NoDup (a ++ b).
Proof.
  induction a as [|x a IH]; simpl; auto. intros Na Nb D. inversion Na; subst.
  constructor; [rewrite in_app_iff; intros [|Q]; auto; eapply D; eauto|]. apply IH; auto.
Qed.

Theorem C34_tracker_len : forall os,
  tr_len (trun os) = Z.of_nat (length (nodup pair_dec (srun os))).
Proof.
  intros os. destruct (TInv_run os) as (I1 & I2 & I3).
  set (t := trun os) in *. set (s := srun os) in *.
  set (all := flat_map (fun p => map (fun x => (fst p, x)) (elems (snd p))) t).
  assert (L : tr_len t = Z.of_nat (length all)).
  { unfold all, tr_len. assert (W : forall p, In p t -> wf (snd p)) by (intros [v l] H; apply (I2 v l H)).
    clear -W. induction t as [|p t IH]; simpl; auto. rewrite app_length, map_length, IH by (intros; apply W; right; auto).
    rewrite <- elems_length by (apply W; left; auto). lia. }
  rewrite L. f_equal. apply Permutation_length. apply NoDup_Permutation; [|apply NoDup_nodup|].
  - unfold all. assert (W : forall p, In p t -> wf (snd p)) by (intros [v l] H; apply (I2 v l H)).
    clear -W I1. induction t as [|p t IH]; simpl; [constructor|].
    simpl in I1. inversion I1; subst. apply NoDup_app_disj.
    + apply FinFun.Injective_map_NoDup; [intros a b E; congruence|]. apply elems_NoDup, W. left. auto.
    + apply IH; auto. intros q Hq. apply W. right. auto.
    + intros [v x] Hx Hf. apply in_map_iff in Hx as (y & E & _). inversion E; subst.
      apply in_flat_map in Hf as (q & Hq & Hy). apply in_map_iff in Hy as (z & E' & _). inversion E'.
      apply H1. rewrite <- H0. apply in_map. auto.
  - intros [v x]. rewrite nodup_In. unfold all. rewrite in_flat_map. split.
    + intros ([w l] & Hp & Hx). apply in_map_iff in Hx as (y & E & Hy). inversion E; subst. simpl in *.
      apply (I2 _ _ Hp). apply elems_In. auto.
    + intros H. destruct (in_map_iff fst t v) as [Q _]. destruct (Q (I3 _ _ H)) as ([w l] & E & Hp).
      simpl in E. subst w. exists (v, l). split; auto. apply in_map_iff. exists x. split; auto.
      apply elems_In. apply (I2 _ _ Hp). auto.
Qed.

(** Finding: two trackers holding the same batches can compare unequal, because a membership
    question about an unseen view enters that view. Equality is therefore no set equality. *)
Theorem C34_tracker_eq_refuted : exists os1 os2,
  (forall p, In p (srun os1) <-> In p (srun os2)) /\ tr_eqb (trun os1) (trun os2) = false.
Proof.
  exists [TAdd 0 1], [TAdd 0 1; TContains 1 1]. split; [intros p; simpl; tauto|]. vm_compute. reflexivity.
Qed.

(** What holds: equal trackers hold the same batches, and without questions about absent views
    and clears, equality is exactly set equality. *)
Definition only_adds (os : list top) : Prop := Forall (fun o => match o with TAdd _ _ => True | _ => False end) os.

Theorem C34_tracker_eq_sound : forall os1 os2,
  tr_eqb (trun os1) (trun os2) = true -> forall p, In p (srun os1) <-> In p (srun os2).
Proof.
  intros os1 os2 E. destruct (TInv_run os1) as (A1 & A2 & A3), (TInv_run os2) as (B1 & B2 & B3).
  unfold tr_eqb in E. apply andb_true_iff in E as [EL EF]. apply Nat.eqb_eq in EL. rewrite forallb_forall in EF.
  assert (F : forall v l, In (v, l) (trun os1) -> In (v, l) (trun os2)).
  { intros v l H. specialize (EF _ H). simpl in EF. destruct (tr_find v (trun os2)) as [m|] eqn:Q; [|discriminate].
    apply il_eqb_eq in EF. subst m. apply find_In. auto. }
  assert (KI : incl (map fst (trun os2)) (map fst (trun os1))).
  { apply NoDup_length_incl; [exact A1|rewrite !map_length; lia|].
    intros v Hv. apply in_map_iff in Hv as ([w l] & <- & H). apply in_map_iff. exists (w, l). auto. }
  intros [v x]. split; intros H.
  - pose proof (A3 _ _ H) as K. apply in_map_iff in K as ([w l] & <- & K). simpl in *.
    apply (B2 _ _ (F _ _ K)). apply (A2 _ _ K). auto.
  - pose proof (KI _ (B3 _ _ H)) as K. apply in_map_iff in K as ([w l] & <- & K). simpl in *.
    apply (A2 _ _ K). apply (B2 _ _ (F _ _ K)). auto.
Qed.

Lemma adds_keys os : only_adds os -> forall v, In v (map fst (trun os)) -> exists x, In (v, x) (srun os).
Proof.
  unfold trun, srun. intros A.
  assert (H : forall v, In v (map fst (@nil (Z * ilist))) -> exists x, In (v, x) (@nil (Z * Z))) by (intros v []).
  revert H. generalize (@nil (Z * ilist)), (@nil (Z * Z)).
  induction A as [|o os Ao A IH]; intros t s H; simpl; auto. apply IH.
  destruct o as [w y| |]; try (destruct Ao). intros v. cbn [tstep sstep]. unfold tr_add, tr_get.
  intros K.
  assert (K' : v = w \/ In v (map fst t)).
  { destruct (tr_find w t); cbn in K; rewrite !put_keys in K; intuition. }
  destruct K' as [->|K']; [exists y; left; auto|]. destruct (H _ K') as [x Hx]. exists x. right. auto.
Qed.

Theorem C34_tracker_eq_adds : forall os1 os2, only_adds os1 -> only_adds os2 ->
  (tr_eqb (trun os1) (trun os2) = true <-> forall p, In p (srun os1) <-> In p (srun os2)).
Proof.
  intros os1 os2 O1 O2. split; [apply C34_tracker_eq_sound|]. intros E.
  destruct (TInv_run os1) as (A1 & A2 & A3), (TInv_run os2) as (B1 & B2 & B3).
  assert (K1 : incl (map fst (trun os1)) (map fst (trun os2))).
  { intros v Hv. destruct (adds_keys _ O1 _ Hv) as [x Hx]. apply (B3 v x). apply E. auto. }
  assert (K2 : incl (map fst (trun os2)) (map fst (trun os1))).
  { intros v Hv. destruct (adds_keys _ O2 _ Hv) as [x Hx]. apply (A3 v x). apply E. auto. }
  pose proof (NoDup_incl_length A1 K1) as L1. pose proof (NoDup_incl_length B1 K2) as L2. rewrite !map_length in *.
  unfold tr_eqb. apply andb_true_iff. split; [apply Nat.eqb_eq; lia|]. apply forallb_forall.
  intros [v l] H. simpl.
  assert (Hv : In v (map fst (trun os2))) by (apply K1; apply in_map_iff; exists (v, l); auto).
  apply in_map_iff in Hv as ([w m] & <- & Hm). simpl in *.
  rewrite (In_find _ _ _ B1 Hm). apply il_eqb_eq.
  destruct (A2 _ _ H) as [W1 M1], (B2 _ _ Hm) as [W2 M2]. apply wf_ext; auto.
  intros x. rewrite M1, M2. apply E.
Qed.

Example ex_C34_tracker :
  let os := [TAdd 0 3; TAdd 1 4; TAdd 0 2; TContains 5 5; TAdd 1 4; TAdd 2 6; TClear 1; TAdd 2 7] in
  trun os = [(1, [(4, 4)]); (5, []); (2, [(6, 7)])] /\ tr_len (trun os) = 3.
Proof. vm_compute. split; reflexivity. Qed.

Print Assumptions C34_interval_list_is_set.
Print Assumptions C34_interval_list_eq.
Print Assumptions C34_tracker_contains.
Print Assumptions C34_tracker_len.
Print Assumptions C34_tracker_eq_sound.
Print Assumptions C34_tracker_eq_adds.
Print Assumptions C34_tracker_eq_refuted.
