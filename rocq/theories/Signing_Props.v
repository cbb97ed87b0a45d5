(** Property C36: is signed content unambiguous? *)
From Coq Require Import List NArith ZArith Bool Ascii String Decimal DecimalString DecimalFacts DecimalPos DecimalZ PArith Lia Permutation Sorted.
From Verif Require Import Base Signing_Model.
Import ListNotations.
Local Open Scope list_scope.

(** ** It is not: different requests with the same bytes to sign *)
Definition op1 := PDict [(of_string "dest", PStr (of_string "x|role:101")); (of_string "type", PStr (of_string "1"))].
Definition op2 := PDict [(of_string "dest", PStr (of_string "x")); (of_string "role", PStr (of_string "101"));
                         (of_string "type", PStr (of_string "1"))].
Theorem C36_unambiguous_refuted : exists o1 o2,
  o1 <> o2 /\
  ser (signing_payload (of_string "id") 7 o1 []) = ser (signing_payload (of_string "id") 7 o2 []).
Proof. exists op1, op2. split; [discriminate|]. vm_compute. reflexivity. Qed.

(** It is ambiguous even without separators inside strings: nesting, types and empty values
    leave no trace. *)
Theorem C36_nesting_refuted :
  ser (PDict [(of_string "a", PDict [(of_string "b", PInt 1); (of_string "c", PInt 2)])])
  = ser (PDict [(of_string "a", PDict [(of_string "b", PInt 1)]); (of_string "c", PInt 2)]) /\
  ser (PInt 1) = ser (PStr (of_string "1")) /\ ser PNone = ser (PStr []) /\
  ser (PList []) = ser (PDict []) /\ ser (PList [PStr (of_string "x")]) = ser (PStr (of_string "x")).
Proof. vm_compute. repeat split. Qed.

(** ** What holds: objects of the same shape, with leaf strings free of separators *)
Definition is_sep (c : N) : bool := N.eqb c colon || N.eqb c bar || N.eqb c comma.
Definition plain (s : str) : Prop := forallb (fun c => negb (is_sep c)) s = true.

(** Every string value (not key) occurring in the object is free of separators. *)
Fixpoint plain_leaves (o : obj) : Prop :=
  match o with
  | PStr s => plain s
  | PList l => (fix all l := match l with [] => True | x :: l' => plain_leaves x /\ all l' end) l
  | PDict d => (fix all d := match d with [] => True | (_, x) :: d' => plain_leaves x /\ all d' end) d
  | _ => True
  end.

(** The object with its dicts sorted by key: two Python objects are equal iff these are. *)
Fixpoint norm (o : obj) : obj :=
  match o with
  | PList l => PList (map norm l)
  | PDict d => PDict (sort_items (map (fun '(k, v) => (k, norm v)) d))
  | _ => o
  end.

(** The object with strings and numbers blanked: keys, list lengths and types remain. *)
Fixpoint blank (o : obj) : obj :=
  match o with
  | PNone => PNone
  | PStr _ => PStr []
  | PInt _ => PInt 0
  | PBool _ => PBool false
  | PList l => PList (map blank l)
  | PDict d => PDict (map (fun '(k, v) => (k, blank v)) d)
  end.
Definition same_shape (a b : obj) : Prop := blank (norm a) = blank (norm b).

Section ObjInd.
  Variable P : obj -> Prop.
  Hypothesis HNone : P PNone.
  Hypothesis HStr : forall s, P (PStr s).
  Hypothesis HInt : forall z, P (PInt z).
  Hypothesis HBool : forall b, P (PBool b).
  Hypothesis HList : forall l, Forall P l -> P (PList l).
  Hypothesis HDict : forall d, Forall (fun p => P (snd p)) d -> P (PDict d).
  Fixpoint obj_ind' (o : obj) : P o :=
    match o with
    | PNone => HNone | PStr s => HStr s | PInt z => HInt z | PBool b => HBool b
    | PList l => HList l ((fix go l : Forall P l :=
        match l with [] => Forall_nil _ | x :: l' => Forall_cons _ (obj_ind' x) (go l') end) l)
    | PDict d => HDict d ((fix go d : Forall (fun p => P (snd p)) d :=
        match d with [] => Forall_nil _ | p :: d' => Forall_cons _ (obj_ind' (snd p)) (go d') end) d)
    end.
End ObjInd.

(** *** Decimal numbers *)
Lemma of_string_inj a : forall b, of_string a = of_string b -> a = b.
Proof.
  induction a as [|c a IH]; intros [|d b] E; simpl in E; try discriminate; auto.
  injection E as E1 E2. f_equal; [|auto].
  rewrite <- (ascii_N_embedding c), <- (ascii_N_embedding d). congruence.
Qed.

Lemma str_int_inj a b : str_int a = str_int b -> a = b.
Proof.
  unfold str_int. intros E. apply of_string_inj in E.
  apply (f_equal NilZero.int_of_string) in E. 
  rewrite !NilZero.isi in E.
  - injection E as E. rewrite <- (DecimalZ.of_to a), <- (DecimalZ.of_to b). congruence.
  - intros X. destruct b; simpl in X; try discriminate; inversion X as [Y]; exact (Unsigned.to_uint_nonnil _ Y).
  - intros X. destruct b; simpl in X; try discriminate; inversion X as [Y]; exact (Unsigned.to_uint_nonnil _ Y).
  - intros X. destruct a; simpl in X; try discriminate; inversion X as [Y]; exact (Unsigned.to_uint_nonnil _ Y).
  - intros X. destruct a; simpl in X; try discriminate; inversion X as [Y]; exact (Unsigned.to_uint_nonnil _ Y).
Qed.

Lemma plain_app a b : plain a -> plain b -> plain (a ++ b).
Proof. unfold plain. rewrite forallb_app. intros -> ->. reflexivity. Qed.

Lemma plain_str_int z : plain (str_int z).
Proof.
  unfold str_int. 
  assert (U : forall u, plain (of_string (NilEmpty.string_of_uint u))).
  { induction u as [|u IHu|u IHu|u IHu|u IHu|u IHu|u IHu|u IHu|u IHu|u IHu|u IHu]; [reflexivity|exact IHu..]. }
  assert (U2 : forall u, plain (of_string (NilZero.string_of_uint u))).
  { intros []; try apply U. reflexivity. }
  destruct (Z.to_int z) as [u|u]; simpl.
  - apply U2.
  - specialize (U2 u). unfold plain in *. simpl. exact U2.
Qed.

(** *** Text after a value: nothing, or a separator *)
Definition boundary (r : str) : Prop := match r with [] => True | c :: _ => is_sep c = true end.

Lemma leaf_inj s1 : forall s2 r1 r2, plain s1 -> plain s2 -> boundary r1 -> boundary r2 ->
  s1 ++ r1 = s2 ++ r2 -> s1 = s2 /\ r1 = r2.
Proof.
  unfold plain, boundary.
  induction s1 as [|c s1 IH]; intros [|d s2] r1 r2 P1 P2 B1 B2 E; simpl in *; auto.
  - subst r1. apply andb_true_iff in P2 as [P2 _]. rewrite B1 in P2. discriminate.
  - subst r2. apply andb_true_iff in P1 as [P1 _]. rewrite B2 in P1. discriminate.
  - injection E as -> E. apply andb_true_iff in P1 as [_ P1]. apply andb_true_iff in P2 as [_ P2].
    destruct (IH s2 r1 r2 P1 P2 B1 B2 E) as [-> ->]. auto.
Qed.

(** *** Serialization in the given order of keys *)
Fixpoint ser_n (o : obj) : str :=
  match o with
  | PNone => []
  | PStr s => s
  | PInt z => str_int z
  | PBool b => of_string (if b then "True" else "False")
  | PList l => join comma (map ser_n l)
  | PDict d => join bar (map (fun '(k, v) => k ++ colon :: ser_n v) d)
  end.

Lemma insert_map {V W} (f : str -> V -> W) p (l : list (str * V)) :
  insert (fst p, f (fst p) (snd p)) (map (fun '(k, v) => (k, f k v)) l)
  = map (fun '(k, v) => (k, f k v)) (insert p l).
Proof.
  induction l as [|[k v] l IH]; destruct p as [pk pv]; simpl in *; auto.
  destruct (str_leb pk k); simpl; auto. f_equal. exact IH.
Qed.
Lemma sort_map {V W} (f : str -> V -> W) (l : list (str * V)) :
  sort_items (map (fun '(k, v) => (k, f k v)) l) = map (fun '(k, v) => (k, f k v)) (sort_items l).
Proof.
  unfold sort_items. induction l as [|[k v] l IH]; simpl; auto. rewrite IH.
  exact (insert_map f (k, v) (fold_right insert [] l)).
Qed.

Lemma insert_In {V} (p q : str * V) l : In q (insert p l) <-> q = p \/ In q l.
Proof.
  induction l as [|x l IH]; simpl.
  - intuition.
  - destruct (str_leb (fst p) (fst x)); simpl; [intuition|]. rewrite IH. intuition.
Qed.
Lemma sort_In {V} (q : str * V) l : In q (sort_items l) <-> In q l.
Proof.
  unfold sort_items. induction l as [|x l IH]; simpl; [tauto|]. rewrite insert_In, IH. intuition.
Qed.

Lemma ser_norm o : ser o = ser_n (norm o).
Proof.
  induction o as [| | | |l IH|d IH] using obj_ind'; simpl; auto.
  - f_equal. rewrite map_map. induction IH; simpl; congruence.
  - f_equal. rewrite (sort_map (fun k v => k ++ colon :: ser v)), (sort_map (fun _ v => norm v)), !map_map.
    apply map_ext_in. intros [k v] Hin. simpl. do 2 f_equal.
    rewrite Forall_forall in IH. apply (IH (k, v)). apply sort_In. exact Hin.
Qed.

Lemma plain_list l : plain_leaves (PList l) <-> Forall plain_leaves l.
Proof.
  simpl. induction l as [|x l IH]; [split; auto|]. rewrite IH. split.
  - intros [A B]. auto.
  - intros H. inversion H. auto.
Qed.
Lemma plain_dict d : plain_leaves (PDict d) <-> Forall (fun p => plain_leaves (snd p)) d.
Proof.
  simpl. induction d as [|[k x] l IH]; [split; auto|]. rewrite IH. split.
  - intros [A B]. auto.
  - intros H. inversion H. auto.
Qed.

Lemma plain_norm o : plain_leaves o -> plain_leaves (norm o).
Proof.
  induction o as [| | | |l IH|d IH] using obj_ind'; auto.
  - rewrite plain_list. cbn [norm]. rewrite plain_list, !Forall_forall.
    rewrite Forall_forall in IH. intros H x Hx. apply in_map_iff in Hx as (y & <- & Hy). auto.
  - rewrite plain_dict. cbn [norm]. rewrite plain_dict, !Forall_forall.
    rewrite Forall_forall in IH. intros H x Hx. rewrite sort_In in Hx.
    apply in_map_iff in Hx as ([k y] & <- & Hy). exact (IH (k, y) Hy (H (k, y) Hy)).
Qed.

Lemma join_cons sep (x : str) l : join sep (x :: l) = x ++ List.concat (map (fun y => sep :: y) l).
Proof.
  revert x. induction l as [|y l IH]; intros x; simpl; [rewrite List.app_nil_r; auto|].
  simpl in IH. rewrite (IH y). reflexivity.
Qed.

Definition inj_at (o1 : obj) : Prop := forall o2 r1 r2,
  blank o1 = blank o2 -> plain_leaves o1 -> plain_leaves o2 -> boundary r1 -> boundary r2 ->
  ser_n o1 ++ r1 = ser_n o2 ++ r2 -> o1 = o2 /\ r1 = r2.

Lemma tails_inj {X} (bl : X -> X) (sx : X -> str) (pl : X -> Prop) sep (Hsep : is_sep sep = true) l1 :
  Forall (fun x1 => forall x2 r1 r2, bl x1 = bl x2 -> pl x1 -> pl x2 -> boundary r1 -> boundary r2 ->
    sx x1 ++ r1 = sx x2 ++ r2 -> x1 = x2 /\ r1 = r2) l1 ->
  forall l2 r1 r2, map bl l1 = map bl l2 -> Forall pl l1 -> Forall pl l2 -> boundary r1 -> boundary r2 ->
  List.concat (map (fun y => sep :: y) (map sx l1)) ++ r1 = List.concat (map (fun y => sep :: y) (map sx l2)) ++ r2 ->
  l1 = l2 /\ r1 = r2.
Proof.
  induction 1 as [|x1 l1 H1 _ IH]; intros [|x2 l2] r1 r2 E P1 P2 B1 B2 Es; try discriminate; auto.
  injection E as E1 E2. inversion P1 as [|? ? H3 H4]; inversion P2 as [|? ? H7 H8]; subst. simpl in Es. injection Es as Es.
  rewrite <- !List.app_assoc in Es.
  assert (BB : forall l r, boundary r -> boundary (List.concat (map (fun y => sep :: y) (map sx l)) ++ r)).
  { intros [|? ?] r B; simpl; auto. }
  destruct (H1 _ _ _ E1 H3 H7 (BB _ _ B1) (BB _ _ B2) Es) as [-> E'].
  destruct (IH _ _ _ E2 H4 H8 B1 B2 E') as [-> ->]. auto.
Qed.

Lemma joins_inj {X} (bl : X -> X) (sx : X -> str) (pl : X -> Prop) sep (Hsep : is_sep sep = true) l1 :
  Forall (fun x1 => forall x2 r1 r2, bl x1 = bl x2 -> pl x1 -> pl x2 -> boundary r1 -> boundary r2 ->
    sx x1 ++ r1 = sx x2 ++ r2 -> x1 = x2 /\ r1 = r2) l1 ->
  forall l2 r1 r2, map bl l1 = map bl l2 -> Forall pl l1 -> Forall pl l2 -> boundary r1 -> boundary r2 ->
  join sep (map sx l1) ++ r1 = join sep (map sx l2) ++ r2 ->
  l1 = l2 /\ r1 = r2.
Proof.
  intros H l2 r1 r2 E P1 P2 B1 B2 Es.
  destruct l1 as [|x1 l1], l2 as [|x2 l2]; try discriminate; auto.
  apply (tails_inj bl sx pl sep Hsep (x1 :: l1) H (x2 :: l2) r1 r2 E P1 P2 B1 B2).
  cbn [map] in *. rewrite !join_cons in Es. simpl. f_equal. exact Es.
Qed.

Lemma ser_n_inj o1 : inj_at o1.
Proof.
  unfold inj_at.
  induction o1 as [|s|z|b|l IH|d IH] using obj_ind'; intros o2 r1 r2 E P1 P2 B1 B2 Es;
    destruct o2 as [|s2|z2|b2|l2|d2]; try discriminate E.
  - auto.
  - destruct (leaf_inj s s2 r1 r2 P1 P2 B1 B2 Es) as [-> ->]; auto.
  - destruct (leaf_inj _ _ r1 r2 (plain_str_int z) (plain_str_int z2) B1 B2 Es) as [Ez ->].
    apply str_int_inj in Ez as ->. auto.
  - assert (PB : forall b : bool, plain (of_string (if b then "True" else "False"))) by (intros []; reflexivity).
    destruct (leaf_inj _ _ r1 r2 (PB b) (PB b2) B1 B2 Es) as [Eb ->].
    destruct b, b2; try discriminate Eb; auto.
  - rewrite plain_list in P1, P2. simpl in E. injection E as E.
    destruct (joins_inj blank ser_n plain_leaves comma eq_refl l IH l2 r1 r2 E P1 P2 B1 B2 Es) as [-> ->]. auto.
  - rewrite plain_dict in P1, P2. simpl in E. injection E as E.
    destruct (joins_inj (fun '(k, v) => (k, blank v)) (fun '(k, v) => k ++ colon :: ser_n v)
                (fun p => plain_leaves (snd p)) bar eq_refl d) with (l2 := d2) (r1 := r1) (r2 := r2) as [-> ->]; auto.
    rewrite Forall_forall in *. intros [k v] Hin [k2 v2] q1 q2 Ek Pl1 Pl2 Bq1 Bq2 Eq.
    injection Ek as -> Ev. rewrite <- !List.app_assoc in Eq. apply app_inv_head in Eq.
    simpl in Eq. injection Eq as Eq.
    pose proof (IH (k2, v) Hin v2 q1 q2 Ev Pl1 Pl2 Bq1 Bq2 Eq) as [Ev2 ->]. simpl in Ev2. subst v2. auto.
Qed.

Lemma serialize_nil o : serialize o [] = ser o.
Proof.
  destruct o; auto. unfold serialize. 
  assert (E : forall d : list (str * obj), filter (fun '(k, _) => negb (existsb (bytes_eqb k) [])) d = d).
  { induction d0 as [|[k v] d0 IH]; auto. cbn. f_equal. exact IH. }
  rewrite E. reflexivity.
Qed.

(** C36, the part that holds: between objects of one shape, with no separator inside any string
    value, the serialization distinguishes all contents. *)
Theorem C36_same_shape_partial : forall o1 o2,
  same_shape o1 o2 -> plain_leaves o1 -> plain_leaves o2 ->
  serialize o1 [] = serialize o2 [] -> norm o1 = norm o2.
Proof.
  intros o1 o2 S P1 P2 E. rewrite !serialize_nil, !ser_norm in E.
  apply (f_equal (fun s => s ++ [])) in E.
  exact (proj1 (ser_n_inj (norm o1) (norm o2) [] [] S (plain_norm _ P1) (plain_norm _ P2) I I E)).
Qed.

(** ** Signing does not depend on the order in which a dict was filled *)
Lemma str_leb_total a : forall b, str_leb a b = true \/ str_leb b a = true.
Proof.
  induction a as [|x a IH]; intros [|y b]; simpl; auto.
  rewrite (N.eqb_sym y x). destruct (N.eqb_spec x y); auto.
  destruct (N.ltb_spec x y), (N.ltb_spec y x); auto. lia.
Qed.
Lemma str_leb_antisym a : forall b, str_leb a b = true -> str_leb b a = true -> a = b.
Proof.
  induction a as [|x a IH]; intros [|y b]; simpl; auto; try discriminate.
  rewrite (N.eqb_sym y x). destruct (N.eqb_spec x y) as [->|].
  - intros. f_equal; auto.
  - rewrite !N.ltb_lt. lia.
Qed.
Lemma str_leb_trans a : forall b c, str_leb a b = true -> str_leb b c = true -> str_leb a c = true.
Proof.
  induction a as [|x a IH]; intros [|y b] [|z c]; simpl; auto; try discriminate.
  destruct (N.eqb_spec x y) as [->|Nxy].
  - destruct (N.eqb_spec y z) as [->|]; eauto.
  - destruct (N.eqb_spec y z) as [->|].
    + destruct (N.eqb_spec x z); [lia|auto].
    + rewrite !N.ltb_lt. intros. destruct (N.eqb_spec x z); [lia|]. apply N.ltb_lt. lia.
Qed.

Definition keyle {V} (p q : str * V) : Prop := str_leb (fst p) (fst q) = true.

Lemma insert_sorted {V} (p : str * V) l : StronglySorted keyle l -> StronglySorted keyle (insert p l).
Proof.
  unfold keyle. induction 1 as [|q l Hs IH Hall]; simpl.
  - repeat constructor.
  - destruct (str_leb (fst p) (fst q)) eqn:E.
    + constructor; [constructor; auto|]. constructor; auto.
      eapply Forall_impl; [|exact Hall]. intros a Ha. simpl in Ha. eapply str_leb_trans; eauto.
    + constructor; auto. apply Forall_forall. intros a Ha. rewrite insert_In in Ha. destruct Ha as [->|Ha].
      * destruct (str_leb_total (fst p) (fst q)); congruence.
      * rewrite Forall_forall in Hall. auto.
Qed.
Lemma sort_sorted {V} (l : list (str * V)) : StronglySorted keyle (sort_items l).
Proof. unfold sort_items. induction l; simpl; [constructor|]. apply insert_sorted. auto. Qed.
Lemma insert_perm {V} (p : str * V) l : Permutation (insert p l) (p :: l).
Proof.
  induction l as [|q l IH]; simpl; auto. destruct (str_leb (fst p) (fst q)); auto.
  rewrite IH. constructor.
Qed.
Lemma sort_perm {V} (l : list (str * V)) : Permutation (sort_items l) l.
Proof. unfold sort_items. induction l; simpl; auto. rewrite insert_perm. constructor. auto. Qed.

Lemma sorted_perm_eq {V} (l1 : list (str * V)) : forall l2, StronglySorted keyle l1 -> StronglySorted keyle l2 ->
  NoDup (map fst l1) -> Permutation l1 l2 -> l1 = l2.
Proof.
  induction l1 as [|p l1 IH]; intros l2 S1 S2 ND Pm.
  - apply Permutation_nil in Pm. auto.
  - destruct l2 as [|q l2]; [apply Permutation_sym, Permutation_nil in Pm; discriminate|].
    inversion S1 as [|? ? S1' A1]; inversion S2 as [|? ? S2' A2]; subst.
    assert (p = q).
    { assert (Hq : In q (p :: l1)) by (apply (Permutation_in _ (Permutation_sym Pm)); left; auto).
      assert (Hp : In p (q :: l2)) by (apply (Permutation_in _ Pm); left; auto).
      destruct Hq as [|Hq]; auto. destruct Hp as [|Hp]; auto.
      rewrite Forall_forall in A1, A2. specialize (A1 _ Hq). specialize (A2 _ Hp).
      pose proof (str_leb_antisym _ _ A1 A2) as Ek.
      inversion ND as [|? ? Nin _]. exfalso. apply Nin. rewrite Ek. apply in_map. auto. }
    subst q. f_equal. apply Permutation_cons_inv in Pm. inversion ND. apply IH; auto.
Qed.

Lemma sort_perm_eq {V} (l1 l2 : list (str * V)) : NoDup (map fst l1) -> Permutation l1 l2 ->
  sort_items l1 = sort_items l2.
Proof.
  intros ND Pm. apply sorted_perm_eq; try apply sort_sorted.
  - apply (Permutation_NoDup (l := map fst l1)); auto. apply Permutation_map, Permutation_sym, sort_perm.
  - rewrite !sort_perm. exact Pm.
Qed.

Lemma Permutation_filter {A} (f : A -> bool) l l' : Permutation l l' -> Permutation (filter f l) (filter f l').
Proof.
  induction 1; simpl; auto.
  - destruct (f x); auto.
  - destruct (f x), (f y); auto. constructor.
  - etransitivity; eauto.
Qed.

Theorem C36_order_irrelevant : forall d1 d2 ignore,
  NoDup (map fst d1) -> Permutation d1 d2 ->
  serialize (PDict d1) ignore = serialize (PDict d2) ignore.
Proof.
  intros d1 d2 ig ND Pm. unfold serialize. set (f := fun '(k, _) => _). clearbody f.
  rewrite !ser_norm. simpl. do 2 f_equal. apply sort_perm_eq.
  - rewrite map_map, (map_ext _ fst); [|intros []; reflexivity].
    clear -ND. induction d1 as [|[k v] d IH]; simpl; auto. inversion ND. subst.
    destruct (f (k, v)); simpl; auto. constructor; auto. intros X. apply H1.
    apply in_map_iff in X as (q & <- & Hq). apply filter_In in Hq as [Hq _]. apply in_map. exact Hq.
  - apply Permutation_map, Permutation_filter. exact Pm.
Qed.

(** ** Pre-prepare digest: the list of requests of a batch, in order, is determined *)
Lemma tails_sep_inj l1 : forall l2, Forall plain l1 -> Forall plain l2 ->
  List.concat (map (fun y => comma :: y) l1) = List.concat (map (fun y => comma :: y) l2) -> l1 = l2.
Proof.
  assert (BB : forall l, boundary (List.concat (map (fun y => comma :: y) l))).
  { intros [|? ?]; simpl; auto. }
  induction l1 as [|x l1 IH]; intros [|y l2] P1 P2 E; try discriminate; auto.
  inversion P1 as [|? ? H1 H2]; inversion P2 as [|? ? H5 H6]; subst. simpl in E. injection E as E.
  destruct (leaf_inj _ _ _ _ H1 H5 (BB _) (BB _) E) as [-> E']. f_equal. auto.
Qed.

Theorem C36_pp_digest_input : forall ds1 v1 t1 ds2 v2 t2,
  Forall plain ds1 -> Forall plain ds2 ->
  pp_digest_input ds1 v1 t1 = pp_digest_input ds2 v2 t2 ->
  ds1 = ds2 /\ v1 = v2 /\ t1 = t2.
Proof.
  intros ds1 v1 t1 ds2 v2 t2 P1 P2 E. unfold pp_digest_input in E. rewrite !serialize_nil in E.
  cbn [ser map] in E. rewrite !join_cons in E.
  assert (M : forall ds, map ser (map PStr ds) = ds).
  { induction ds; simpl; congruence. }
  rewrite !M in E.
  assert (E2 : str_int v1 :: str_int t1 :: ds1 = str_int v2 :: str_int t2 :: ds2).
  { apply tails_sep_inj; [repeat constructor; auto using plain_str_int ..|].
    exact (f_equal (cons comma) E). }
  injection E2 as Ev Et Ed. apply str_int_inj in Ev. apply str_int_inj in Et. auto.
Qed.

(** The batch digest of the throughput monitor concatenates without separators: it determines
    the list only because digests have one length. *)
Theorem C36_replica_batch_digest_input : forall n ds1 ds2,
  (0 < n)%nat ->
  Forall (fun d => List.length d = n) ds1 -> Forall (fun d => List.length d = n) ds2 ->
  replica_batch_digest_input ds1 = replica_batch_digest_input ds2 -> ds1 = ds2.
Proof.
  intros n ds1. unfold replica_batch_digest_input.
  induction ds1 as [|d ds1 IH]; intros [|e ds2] Hn F1 F2 E; simpl in E; auto.
  - inversion F2; subst. destruct e; simpl in *; [lia|discriminate].
  - inversion F1; subst. destruct d; simpl in *; [lia|discriminate].
  - inversion F1 as [|? ? L1 F1']; inversion F2 as [|? ? L2 F2']; subst.
    assert (Ed : d = e).
    { apply (f_equal (firstn (List.length d))) in E.
      rewrite firstn_app, Nat.sub_diag, firstn_all, firstn_O, List.app_nil_r in E.
      rewrite firstn_app in E. rewrite <- L2 in E at 2. rewrite Nat.sub_diag, firstn_O, List.app_nil_r in E.
      rewrite <- L2, firstn_all in E. exact E. }
    subst e. f_equal. apply app_inv_head in E. auto.
Qed.

(** Cases that meet the hypotheses *)
Definition nym r := signing_payload (of_string "L5AD5g65TDQr1PPHHRoiGf") 1514
  (PDict [(of_string "type", PStr (of_string "1")); (of_string "dest", PStr (of_string "GEzcdDLhCpGCYRHW82kjHd"));
          (of_string "raw", PList [PInt r; PNone; PBool true])]) [].
Example ex_C36 : same_shape (nym (-3)) (nym 1234567) /\ plain_leaves (nym (-3)) /\ plain_leaves (nym 1234567)
  /\ serialize (nym (-3)) [] <> serialize (nym 1234567) []
  /\ serialize (nym (-3)) [] = of_string
     "identifier:L5AD5g65TDQr1PPHHRoiGf|operation:dest:GEzcdDLhCpGCYRHW82kjHd|raw:-3,,True|type:1|reqId:1514"%string.
Proof. repeat split; try reflexivity. vm_compute. discriminate. Qed.
Example ex_C36_digest : Forall plain [of_string "ab12"; of_string "ff"] /\
  pp_digest_input [of_string "ab12"; of_string "ff"] 0 1499906902 = of_string "0,1499906902,ab12,ff".
Proof. repeat constructor. Qed.

Print Assumptions C36_unambiguous_refuted.
Print Assumptions C36_nesting_refuted.
Print Assumptions C36_same_shape_partial.
Print Assumptions C36_order_irrelevant.
Print Assumptions C36_pp_digest_input.
Print Assumptions C36_replica_batch_digest_input.
