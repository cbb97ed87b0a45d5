(** Proofs about the Merkle verifier: completeness and soundness. *)
From Coq Require Import List Arith NArith Lia Bool.
From Verif Require Import Base Bits_Model Bits_Proofs Merkle_Spec Merkle_Model Merkle_Proofs Merkle_Store.
Import ListNotations.

Lemma div2_even k : Nat.div2 (2 * k) = k. Proof. apply Nat.div2_double. Qed.
Lemma div2_odd k : Nat.div2 (2 * k + 1) = k.
Proof. rewrite Nat.add_1_r. apply Nat.div2_succ_double. Qed.
Lemma odd_double k : Nat.odd (2 * k) = false.
Proof. rewrite Nat.odd_mul. reflexivity. Qed.
Lemma odd_succ_double k : Nat.odd (2 * k + 1) = true.
Proof. apply Nat.odd_spec. exists k. reflexivity. Qed.
Lemma parity_cases n : (exists k, n = 2 * k) \/ (exists k, n = 2 * k + 1).
Proof.
  destruct (Nat.even n) eqn:E.
  - left. apply Nat.even_spec. auto.
  - right. apply Nat.odd_spec. unfold Nat.odd. rewrite E. reflexivity.
Qed.
Lemma div2_lt n : 0 < n -> Nat.div2 n < n. Proof. apply Nat.lt_div2. Qed.

Section Verify.
  Variable H : bytes -> bytes.
  Notation hash_children := (hash_children H).
  Notation hash_leaf := (hash_leaf H).
  Notation mthh := (mthh H).
  Notation peaks := (peaks H).
  Notation ipath := (ipath H).
  Notation cpath := (cpath H).

  (** ** The audit-path loop *)
  Definition calc (idx last : nat) (P : list bytes) (h : bytes) : res bytes :=
    calc_root H (S last) idx last P h.

  Lemma calc_fuel f : forall idx last P h, last < f -> calc_root H f idx last P h = calc idx last P h.
  Proof.
    induction f as [f IH] using lt_wf_ind. intros idx last P h Hf. unfold calc.
    destruct f as [|f]; [lia|]. cbn [calc_root].
    destruct (Nat.ltb_spec 0 last) as [L|L]; [|reflexivity].
    pose proof (div2_lt last L).
    destruct P as [|a P]; [reflexivity|].
    destruct (Nat.eq_dec f last) as [->|]; [reflexivity|].
    repeat (rewrite (IH f) by lia). repeat (rewrite (IH last) by lia). reflexivity.
  Qed.

  Lemma calc_0 idx P h : calc idx 0 P h = match P with [] => Ok h | _ => Err ProofError end.
  Proof. reflexivity. Qed.

  Lemma calc_nil idx last h : 0 < last -> calc idx last [] h = Err ProofError.
  Proof. intros. unfold calc. cbn [calc_root]. destruct (Nat.ltb_spec 0 last); [reflexivity|lia]. Qed.

  Lemma calc_cons idx last a P h : 0 < last ->
    calc idx last (a :: P) h =
      if Nat.odd idx then calc (Nat.div2 idx) (Nat.div2 last) P (hash_children a h)
      else if idx <? last then calc (Nat.div2 idx) (Nat.div2 last) P (hash_children h a)
      else calc (Nat.div2 idx) (Nat.div2 last) (a :: P) h.
  Proof.
    intros L. unfold calc at 1. cbn [calc_root]. destruct (Nat.ltb_spec 0 last); [|lia].
    pose proof (div2_lt last L). rewrite !calc_fuel by lia. reflexivity.
  Qed.

  (** Left half: the last audit node is the right sibling of a full subtree. *)
  Lemma calc_left j : forall idx last P r h,
    idx < 2 ^ j -> 2 ^ j <= last -> last < 2 ^ S j ->
    calc idx last (P ++ [r]) h
      = bind (calc idx (2 ^ j - 1) P h) (fun x => Ok (hash_children x r)).
  Proof.
    induction j as [|j IH]; intros idx last P r h Hi L1 L2.
    - simpl in *. assert (idx = 0) by lia. assert (last = 1) by lia. subst.
      destruct P as [|a P]; [reflexivity|].
      rewrite calc_0. simpl app. rewrite calc_cons by lia. simpl Nat.odd. simpl (0 <? 1). cbv iota.
      simpl Nat.div2. rewrite calc_0. destruct P; reflexivity.
    - rewrite Nat.pow_succ_r' in *. pose proof (pow2_pos j).
      assert (Hd : 2 ^ j <= Nat.div2 last < 2 * 2 ^ j).
      { rewrite Nat.pow_succ_r' in *. destruct (parity_cases last) as [[k ->]|[k ->]]; rewrite ?div2_even, ?div2_odd; lia. }
      assert (Hdi : Nat.div2 idx < 2 ^ j).
      { destruct (parity_cases idx) as [[k ->]|[k ->]]; rewrite ?div2_even, ?div2_odd; lia. }
      assert (Hk : Nat.div2 (2 * 2 ^ j - 1) = 2 ^ j - 1).
      { replace (2 * 2 ^ j - 1) with (2 * (2 ^ j - 1) + 1) by lia. apply div2_odd. }
      destruct P as [|a P].
      + rewrite (calc_nil idx (2 * 2 ^ j - 1)) by lia. cbn [bind app].
        rewrite calc_cons by lia. rewrite !calc_nil by lia.
        destruct (Nat.odd idx); auto. destruct (Nat.ltb_spec idx last); [reflexivity|lia].
      + cbn [app]. rewrite (calc_cons idx last) by lia. rewrite (calc_cons idx (2 * 2 ^ j - 1)) by lia. rewrite Hk.
        destruct (Nat.odd idx) eqn:O.
        * apply IH; lia.
        * destruct (Nat.ltb_spec idx last); [|lia].
          destruct (Nat.ltb_spec idx (2 * 2 ^ j - 1)).
          -- apply IH; lia.
          -- exfalso. destruct (parity_cases idx) as [[k ->]|[k ->]]; [lia|].
             rewrite odd_succ_double in O. discriminate.
  Qed.

  (** Right half: the last audit node is the full left sibling. *)
  Lemma calc_right j : forall idx last P l h,
    idx <= last -> last < 2 ^ j ->
    calc (2 ^ j + idx) (2 ^ j + last) (P ++ [l]) h
      = bind (calc idx last P h) (fun x => Ok (hash_children l x)).
  Proof.
    induction j as [|j IH]; intros idx last P l h Hi L.
    - simpl in *. assert (last = 0) by lia. assert (idx = 0) by lia. subst. simpl Nat.add.
      destruct P as [|a P]; [reflexivity|].
      rewrite calc_0. cbn [app]. rewrite calc_cons by lia. simpl Nat.odd. cbv iota.
      simpl Nat.div2. rewrite calc_0. destruct P; reflexivity.
    - rewrite Nat.pow_succ_r' in *. pose proof (pow2_pos j).
      assert (Eo : Nat.odd (2 * 2 ^ j + idx) = Nat.odd idx).
      { rewrite Nat.odd_add, odd_double. destruct (Nat.odd idx); reflexivity. }
      assert (Ed : forall x, Nat.div2 (2 * 2 ^ j + x) = 2 ^ j + Nat.div2 x).
      { intros x. destruct (parity_cases x) as [[k ->]|[k ->]].
        - replace (2 * 2 ^ j + 2 * k) with (2 * (2 ^ j + k)) by lia. rewrite !div2_even. reflexivity.
        - replace (2 * 2 ^ j + (2 * k + 1)) with (2 * (2 ^ j + k) + 1) by lia. rewrite !div2_odd. reflexivity. }
      assert (El : (2 * 2 ^ j + idx <? 2 * 2 ^ j + last) = (idx <? last)).
      { destruct (Nat.ltb_spec idx last); destruct (Nat.ltb_spec (2 * 2 ^ j + idx) (2 * 2 ^ j + last)); auto; lia. }
      assert (Hdl : Nat.div2 last < 2 ^ j).
      { destruct (parity_cases last) as [[k ->]|[k ->]]; rewrite ?div2_even, ?div2_odd; lia. }
      assert (Hdi : Nat.div2 idx <= Nat.div2 last).
      { destruct (parity_cases idx) as [[k ->]|[k ->]]; destruct (parity_cases last) as [[k' ->]|[k' ->]];
          rewrite ?div2_even, ?div2_odd; lia. }
      destruct P as [|a P]; cbn [app]; rewrite calc_cons by lia; rewrite Eo, El, !Ed.
      + destruct (Nat.odd idx) eqn:O.
        { assert (0 < last). { destruct idx; [discriminate|lia]. }
          rewrite (calc_nil idx last) by lia. rewrite calc_nil by lia. reflexivity. }
        destruct (Nat.ltb_spec idx last).
        { rewrite (calc_nil idx last) by lia. rewrite calc_nil by lia. reflexivity. }
        change [l] with (([] : list bytes) ++ [l]). rewrite IH by lia.
        assert (idx = last) by lia. subst last.
        destruct (Nat.eq_dec idx 0) as [->|]; [reflexivity|].
        destruct (parity_cases idx) as [[k ->]|[k ->]]; [|rewrite odd_succ_double in O; discriminate].
        rewrite div2_even. rewrite !calc_nil by lia. reflexivity.
      + destruct (Nat.eq_dec last 0) as [->|].
        { assert (idx = 0) by lia. subst. change (Nat.odd 0) with false. change (0 <? 0) with false. change (Nat.div2 0) with 0. cbv iota.
          change (a :: P ++ [l]) with ((a :: P) ++ [l]).
          rewrite (IH 0 0) by lia. reflexivity. }
        rewrite (calc_cons idx last) by lia.
        destruct (Nat.odd idx); [apply IH; lia|].
        destruct (Nat.ltb_spec idx last); [apply IH; lia|].
        change (a :: P ++ [l]) with ((a :: P) ++ [l]). apply IH; lia.
  Qed.

  Lemma calc_left_nil j idx last h : idx < 2 ^ j -> 2 ^ j <= last -> calc idx last [] h = Err ProofError.
  Proof. intros. apply calc_nil. pose proof (pow2_pos j). lia. Qed.

  Lemma split_facts (l : list bytes) : 2 <= length l ->
    let j := Nat.log2 (length l - 1) in
    2 ^ j <= length l - 1 < 2 ^ S j /\ length (firstn (2 ^ j) l) = 2 ^ j /\
    length (skipn (2 ^ j) l) = length l - 2 ^ j /\ 1 <= length l - 2 ^ j <= 2 ^ j.
  Proof.
    intros Hl j. pose proof (split_bounds (length l) Hl) as [B1 B2]. fold j in B1, B2.
    rewrite Nat.pow_succ_r', firstn_length, skipn_length. lia.
  Qed.

  Lemma mthh_split (l : list bytes) : 2 <= length l ->
    let k := 2 ^ Nat.log2 (length l - 1) in
    mthh l = hash_children (mthh (firstn k l)) (mthh (skipn k l)).
  Proof.
    intros Hl. cbv zeta. pose proof (split_facts l Hl) as (A & B & C & D).
    set (j := Nat.log2 (length l - 1)) in *.
    rewrite <- (firstn_skipn (2 ^ j) l) at 1. apply (mthh_app H j); lia.
  Qed.

  Lemma nth_firstn_lt (l : list bytes) k m : m < k -> nth m (firstn k l) [] = nth m l [].
  Proof.
    revert k m. induction l as [|x l IH]; intros [|k] [|m] Hm; simpl; auto; try lia.
    apply IH. lia.
  Qed.
  Lemma nth_skipn (l : list bytes) k m : nth m (skipn k l) [] = nth (k + m) l [].
  Proof. revert l. induction k; intros [|x l]; simpl; auto. destruct m; reflexivity. Qed.

  (** Completeness *)
  Lemma calc_complete : forall fuel l m, length l < fuel -> m < length l ->
    calc m (length l - 1) (ipath fuel m l) (nth m l []) = Ok (mthh l).
  Proof.
    induction fuel as [|f IH]; intros l m Hf Hm; [lia|].
    cbn [Merkle_Store.ipath]. destruct (Nat.eqb_spec (length l) 1) as [E|E].
    - rewrite E. assert (m = 0) by lia. subst. destruct l as [|x [|]]; try discriminate. reflexivity.
    - pose proof (split_facts l ltac:(lia)) as (A & B & C & D).
      rewrite (mthh_split l) by lia. set (j := Nat.log2 (length l - 1)) in *. pose proof (pow2_pos j).
      destruct (Nat.ltb_spec m (2 ^ j)).
      + rewrite (calc_left j) by lia.
        pose proof (IH (firstn (2 ^ j) l) m ltac:(lia) ltac:(lia)) as IH'.
        rewrite B, nth_firstn_lt in IH' by lia. rewrite IH'. reflexivity.
      + replace (calc m (length l - 1)) with (calc (2 ^ j + (m - 2 ^ j)) (2 ^ j + (length l - 2 ^ j - 1)))
          by (f_equal; lia).
        rewrite Nat.pow_succ_r' in A.
        rewrite (calc_right j) by lia.
        pose proof (IH (skipn (2 ^ j) l) (m - 2 ^ j) ltac:(lia) ltac:(lia)) as IH'.
        rewrite C, nth_skipn in IH'. replace (2 ^ j + (m - 2 ^ j)) with m in IH' by lia.
        rewrite IH'. reflexivity.
  Qed.

  (** ** Soundness *)
  Notation Coll := {c : bytes * bytes | Collision H c}.

  Lemma H_inj_dec x y : H x = H y -> Coll + {x = y}.
  Proof.
    intros E. destruct (bytes_eq_dec x y); [right; auto|].
    left. exists (x, y). split; auto.
  Qed.

  Hypothesis HL : FixedLength H.
  Definition dlen := length (H []).
  Lemma H_len x : length (H x) = dlen. Proof. apply HL. Qed.
  Lemma leaf_len x : length (hash_leaf x) = dlen. Proof. apply HL. Qed.

  Lemma children_inj a b c d : hash_children a b = hash_children c d ->
    length a = length c \/ length b = length d -> Coll + {a = c /\ b = d}.
  Proof.
    intros E Hl. destruct (H_inj_dec _ _ E) as [C|E']; [left; auto|right].
    injection E' as E'. destruct Hl; [apply app_inv_length_l|apply app_inv_length_r]; auto.
  Qed.

  Definition AllLen (l : list bytes) := Forall (fun x => length x = dlen) l.

  Lemma AllLen_app a b : AllLen (a ++ b) <-> AllLen a /\ AllLen b.
  Proof. apply Forall_app. Qed.
  Lemma AllLen_firstn k l : AllLen l -> AllLen (firstn k l).
  Proof. intros A. rewrite <- (firstn_skipn k l) in A. apply AllLen_app in A. tauto. Qed.
  Lemma AllLen_skipn k l : AllLen l -> AllLen (skipn k l).
  Proof. intros A. rewrite <- (firstn_skipn k l) in A. apply AllLen_app in A. tauto. Qed.
  Lemma AllLen_leaves D : AllLen (map hash_leaf D).
  Proof. induction D; constructor; auto. apply H_len. Qed.

  Lemma mthh_len l : AllLen l -> length (mthh l) = dlen.
  Proof.
    intros A. destruct (le_lt_dec 2 (length l)).
    - rewrite mthh_split by auto. apply H_len.
    - destruct l as [|x [|]]; simpl in *; try lia.
      + apply H_len.
      + unfold Merkle_Proofs.mthh. simpl. inversion A; auto.
  Qed.

  Lemma calc_len : forall f idx last P h r, calc_root H f idx last P h = Ok r ->
    length h = dlen -> length r = dlen.
  Proof.
    induction f as [|f IH]; intros idx last P h r E Hh; [discriminate|]. cbn [calc_root] in E.
    destruct (0 <? last).
    - destruct P as [|a P]; [discriminate|].
      destruct (Nat.odd idx); [eapply IH; eauto; apply H_len|].
      destruct (idx <? last); eapply IH; eauto; apply H_len.
    - destruct P; [|discriminate]. injection E as <-. auto.
  Qed.

  (** The audit path of leaf [m], by its recursion equation. *)
  Lemma ipath_fuel f : forall m l, 1 <= length l -> length l <= f -> ipath f m l = ipath (length l) m l.
  Proof.
    induction f as [f IH] using lt_wf_ind. intros m l H1 Hf. destruct f as [|f]; [lia|].
    destruct (length l) as [|n] eqn:El; [lia|].
    cbn [Merkle_Store.ipath]. rewrite El. destruct (Nat.eqb_spec (S n) 1); [reflexivity|].
    pose proof (split_facts l ltac:(lia)) as (A & B & C & D). rewrite El in *.
    set (j := Nat.log2 (S n - 1)) in *. pose proof (pow2_pos j).
    destruct (Nat.eq_dec f n) as [->|]; [reflexivity|].
    destruct (m <? 2 ^ j).
    - rewrite (IH f), (IH n) by lia. reflexivity.
    - rewrite (IH f), (IH n) by lia. reflexivity.
  Qed.

  Lemma ipath_left m l : 2 <= length l -> let j := Nat.log2 (length l - 1) in
    m < 2 ^ j -> ipath (length l) m l
      = ipath (2 ^ j) m (firstn (2 ^ j) l) ++ [mthh (skipn (2 ^ j) l)].
  Proof.
    intros H2 j Hm. pose proof (split_facts l H2) as (A & B & C & D). fold j in A, B, C, D.
    pose proof (pow2_pos j).
    destruct (length l) as [|n] eqn:El; [lia|]. cbn [Merkle_Store.ipath]. rewrite El.
    destruct (Nat.eqb_spec (S n) 1); [lia|]. fold j. destruct (Nat.ltb_spec m (2 ^ j)); [|lia].
    rewrite (ipath_fuel n) by lia. rewrite B. reflexivity.
  Qed.

  Lemma ipath_right m l : 2 <= length l -> let j := Nat.log2 (length l - 1) in
    2 ^ j <= m -> ipath (length l) m l
      = ipath (length l - 2 ^ j) (m - 2 ^ j) (skipn (2 ^ j) l) ++ [mthh (firstn (2 ^ j) l)].
  Proof.
    intros H2 j Hm. pose proof (split_facts l H2) as (A & B & C & D). fold j in A, B, C, D.
    pose proof (pow2_pos j).
    destruct (length l) as [|n] eqn:El; [lia|]. cbn [Merkle_Store.ipath]. rewrite El.
    destruct (Nat.eqb_spec (S n) 1); [lia|]. fold j. destruct (Nat.ltb_spec m (2 ^ j)); [lia|].
    rewrite (ipath_fuel n) by lia. rewrite C. reflexivity.
  Qed.

  Lemma calc_sound : forall n l m P h, length l = n -> AllLen l -> m < n -> length h = dlen ->
    calc m (n - 1) P h = Ok (mthh l) ->
    Coll + {nth m l [] = h /\ P = ipath n m l}.
  Proof.
    induction n as [n IH] using lt_wf_rect. intros l m P h Hl HA Hm Hh E.
    destruct (Nat.eq_dec n 1) as [E1|E1].
    - right. rewrite E1 in E. simpl in E. rewrite calc_0 in E. destruct P; [|discriminate].
      injection E as ->. subst n. destruct l as [|x [|]]; simpl in *; try lia.
      replace m with 0 by lia. split; reflexivity.
    - pose proof (split_facts l ltac:(lia)) as (A & B & C & D).
      pose proof (ipath_left m l ltac:(lia)) as IL. pose proof (ipath_right m l ltac:(lia)) as IR.
      rewrite (mthh_split l) in E by lia. cbv zeta in IL, IR. rewrite Hl in *.
      set (j := Nat.log2 (n - 1)) in *. pose proof (pow2_pos j).
      destruct (list_eq_dec bytes_eq_dec P []) as [EP|EP].
      { subst P. rewrite calc_nil in E by lia. discriminate. }
      destruct (list_snoc_sig P EP) as (P' & r & ->).
      destruct (lt_dec m (2 ^ j)) as [Lm|Lm].
      + rewrite (calc_left j) in E by lia.
        destruct (calc m (2 ^ j - 1) P' h) as [x|] eqn:Ex; [|discriminate]. cbn [bind] in E.
        assert (E' : hash_children x r = hash_children (mthh (firstn (2 ^ j) l)) (mthh (skipn (2 ^ j) l)))
          by congruence.
        apply children_inj in E'.
        2:{ left. rewrite mthh_len by (apply AllLen_firstn; auto). eapply calc_len; eauto. }
        destruct E' as [Cc|[-> ->]]; [left; auto|].
        destruct (IH (2 ^ j) ltac:(lia) (firstn (2 ^ j) l) m P' h) as [Cc|[<- ->]];
          auto using AllLen_firstn.
        right. split; [symmetry; apply nth_firstn_lt; auto|]. symmetry. auto.
      + rewrite Nat.pow_succ_r' in A.
        replace (calc m (n - 1)) with (calc (2 ^ j + (m - 2 ^ j)) (2 ^ j + (n - 2 ^ j - 1))) in E
          by (f_equal; lia).
        rewrite (calc_right j) in E by lia.
        destruct (calc (m - 2 ^ j) (n - 2 ^ j - 1) P' h) as [x|] eqn:Ex; [|discriminate]. cbn [bind] in E.
        assert (E' : hash_children r x = hash_children (mthh (firstn (2 ^ j) l)) (mthh (skipn (2 ^ j) l)))
          by congruence.
        apply children_inj in E'.
        2:{ right. rewrite mthh_len by (apply AllLen_skipn; auto). eapply calc_len; eauto. }
        destruct E' as [Cc|[-> ->]]; [left; auto|].
        destruct (IH (n - 2 ^ j) ltac:(lia) (skipn (2 ^ j) l) (m - 2 ^ j) P' h) as [Cc|[<- ->]];
          auto using AllLen_skipn; try lia.
        right. split; [rewrite nth_skipn; f_equal; lia|]. symmetry. apply IR. lia.
  Qed.

  (** Equal roots of equally long lists: equal lists or a collision. *)
  Lemma mthh_binding : forall n a b, length a = n -> length b = n -> AllLen a -> AllLen b ->
    mthh a = mthh b -> Coll + {a = b}.
  Proof.
    induction n as [n IH] using lt_wf_rect. intros a b Ha Hb La Lb E.
    destruct (le_lt_dec 2 n) as [Hn|Hn].
    - pose proof (split_facts a ltac:(lia)) as (A1 & B1 & C1 & D1).
      pose proof (split_facts b ltac:(lia)) as (A2 & B2 & C2 & D2).
      rewrite (mthh_split a), (mthh_split b) in E by lia.
      rewrite Ha in *. rewrite Hb in *. set (j := Nat.log2 (n - 1)) in *. pose proof (pow2_pos j).
      apply children_inj in E.
      2:{ left. rewrite !mthh_len by (apply AllLen_firstn; auto). reflexivity. }
      destruct E as [Cc|[E1 E2]]; [left; auto|].
      destruct (IH (2 ^ j) ltac:(lia) (firstn (2 ^ j) a) (firstn (2 ^ j) b)) as [Cc|F1];
        auto using AllLen_firstn.
      destruct (IH (n - 2 ^ j) ltac:(lia) (skipn (2 ^ j) a) (skipn (2 ^ j) b)) as [Cc|F2];
        auto using AllLen_skipn.
      right. rewrite <- (firstn_skipn (2 ^ j) a), <- (firstn_skipn (2 ^ j) b). congruence.
    - right. destruct a as [|x [|]]; destruct b as [|y [|]]; simpl in *; try lia; auto.
      unfold Merkle_Proofs.mthh in E. simpl in E. congruence.
  Qed.

  Lemma leaves_inj : forall a b, map hash_leaf a = map hash_leaf b -> Coll + {a = b}.
  Proof.
    induction a as [|x a IH]; intros [|y b] E; simpl in E; try discriminate; auto.
    assert (E1 : hash_leaf x = hash_leaf y) by congruence.
    assert (E2 : map hash_leaf a = map hash_leaf b) by congruence.
    destruct (IH b E2) as [Cc| ->]; auto.
    destruct (H_inj_dec _ _ E1) as [Cc|E3]; auto.
    right. congruence.
  Qed.

  (** ** Consistency proofs *)
  (** The two loops of the verifier as one, requiring the proof to be used up. *)
  Fixpoint Vf (fuel node last : nat) (p : list bytes) (o w : bytes) : res (bytes * bytes) :=
    match fuel with
    | 0 => Err OutOfFuel
    | S f =>
      if last =? 0 then match p with [] => Ok (o, w) | _ => Err ProofError end
      else if Nat.odd node then
        match p with
        | [] => Err ProofError
        | x :: p' => Vf f (Nat.div2 node) (Nat.div2 last) p' (hash_children x o) (hash_children x w)
        end
      else if node <? last then
        match p with
        | [] => Err ProofError
        | x :: p' => Vf f (Nat.div2 node) (Nat.div2 last) p' o (hash_children w x)
        end
      else Vf f (Nat.div2 node) (Nat.div2 last) p o w
    end.
  Definition V (node last : nat) (p : list bytes) (o w : bytes) := Vf (S last) node last p o w.

  Lemma Vf_fuel f : forall node last p o w, last < f -> Vf f node last p o w = V node last p o w.
  Proof.
    induction f as [f IH] using lt_wf_ind. intros node last p o w Hf. unfold V.
    destruct f as [|f]; [lia|]. cbn [Vf].
    destruct (Nat.eqb_spec last 0) as [L|L]; [reflexivity|].
    pose proof (div2_lt last ltac:(lia)).
    destruct (Nat.eq_dec f last) as [->|]; [reflexivity|].
    destruct p as [|a p]; repeat (rewrite (IH f) by lia); repeat (rewrite (IH last) by lia); reflexivity.
  Qed.

  Lemma V_0 node p o w : V node 0 p o w = match p with [] => Ok (o, w) | _ => Err ProofError end.
  Proof. reflexivity. Qed.

  Lemma V_step node last p o w : 0 < last ->
    V node last p o w =
      if Nat.odd node then
        match p with
        | [] => Err ProofError
        | x :: p' => V (Nat.div2 node) (Nat.div2 last) p' (hash_children x o) (hash_children x w)
        end
      else if node <? last then
        match p with
        | [] => Err ProofError
        | x :: p' => V (Nat.div2 node) (Nat.div2 last) p' o (hash_children w x)
        end
      else V (Nat.div2 node) (Nat.div2 last) p o w.
  Proof.
    intros L. unfold V at 1. cbn [Vf]. destruct (Nat.eqb_spec last 0); [lia|].
    pose proof (div2_lt last L). destruct p; rewrite ?Vf_fuel by lia; reflexivity.
  Qed.

  Definition isErr {A} (x : res A) : Prop := match x with Ok _ => False | Err _ => True end.

  (** With nothing left to consume, a proper left position cannot be finished. *)
  Lemma V_left_nil node last o w : node < last -> V node last [] o w = Err ProofError.
  Proof.
    intros L. rewrite V_step by lia. destruct (Nat.odd node); auto.
    destruct (Nat.ltb_spec node last); [reflexivity|lia].
  Qed.

  Lemma V_left j : forall node last P r o w,
    node < 2 ^ j -> 2 ^ j <= last -> last < 2 ^ S j ->
    V node last (P ++ [r]) o w
      = bind (V node (2 ^ j - 1) P o w) (fun x => Ok (fst x, hash_children (snd x) r)).
  Proof.
    induction j as [|j IH]; intros node last P r o w Hi L1 L2.
    - simpl in *. assert (node = 0) by lia. assert (last = 1) by lia. subst.
      destruct P as [|a P]; [reflexivity|].
      rewrite V_0. rewrite V_step by lia. simpl Nat.odd. simpl (0 <? 1). cbv iota.
      simpl Nat.div2. cbn [app]. rewrite V_0. destruct P; reflexivity.
    - rewrite Nat.pow_succ_r' in *. pose proof (pow2_pos j).
      assert (Hd : 2 ^ j <= Nat.div2 last < 2 * 2 ^ j).
      { rewrite Nat.pow_succ_r' in *. destruct (parity_cases last) as [[k ->]|[k ->]]; rewrite ?div2_even, ?div2_odd; lia. }
      assert (Hdi : Nat.div2 node < 2 ^ j).
      { destruct (parity_cases node) as [[k ->]|[k ->]]; rewrite ?div2_even, ?div2_odd; lia. }
      assert (Hk : Nat.div2 (2 * 2 ^ j - 1) = 2 ^ j - 1).
      { replace (2 * 2 ^ j - 1) with (2 * (2 ^ j - 1) + 1) by lia. apply div2_odd. }
      rewrite (V_step node last) by lia. rewrite (V_step node (2 * 2 ^ j - 1)) by lia. rewrite Hk.
      destruct (Nat.odd node) eqn:O.
      + destruct P as [|a P]; cbn [app].
        * rewrite V_left_nil by lia. reflexivity.
        * apply IH; lia.
      + destruct (Nat.ltb_spec node last); [|lia].
        destruct (Nat.ltb_spec node (2 * 2 ^ j - 1)).
        * destruct P as [|a P]; cbn [app].
          -- rewrite V_left_nil by lia. reflexivity.
          -- apply IH; lia.
        * exfalso. destruct (parity_cases node) as [[k ->]|[k ->]]; [lia|].
          rewrite odd_succ_double in O. discriminate.
  Qed.

  Lemma V_right_nil j : forall node last o w, node <= last -> last < 2 ^ j ->
    V (2 ^ j + node) (2 ^ j + last) [] o w = Err ProofError.
  Proof.
    induction j as [|j IH]; intros node last o w Hi L.
    - simpl in *. assert (node = 0) by lia. assert (last = 0) by lia. subst. reflexivity.
    - rewrite Nat.pow_succ_r' in *. pose proof (pow2_pos j).
      assert (Ed : forall x, Nat.div2 (2 * 2 ^ j + x) = 2 ^ j + Nat.div2 x).
      { intros x. destruct (parity_cases x) as [[k ->]|[k ->]].
        - replace (2 * 2 ^ j + 2 * k) with (2 * (2 ^ j + k)) by lia. rewrite !div2_even. reflexivity.
        - replace (2 * 2 ^ j + (2 * k + 1)) with (2 * (2 ^ j + k) + 1) by lia. rewrite !div2_odd. reflexivity. }
      assert (Hdl : Nat.div2 last < 2 ^ j).
      { destruct (parity_cases last) as [[k ->]|[k ->]]; rewrite ?div2_even, ?div2_odd; lia. }
      assert (Hdi : Nat.div2 node <= Nat.div2 last).
      { destruct (parity_cases node) as [[k ->]|[k ->]]; destruct (parity_cases last) as [[k' ->]|[k' ->]];
          rewrite ?div2_even, ?div2_odd; lia. }
      rewrite V_step by lia. rewrite !Ed.
      destruct (Nat.odd (2 * 2 ^ j + node)); auto. destruct (2 * 2 ^ j + node <? 2 * 2 ^ j + last); auto.
  Qed.

  Lemma V_right j : forall node last P l o w,
    node <= last -> last < 2 ^ j ->
    V (2 ^ j + node) (2 ^ j + last) (P ++ [l]) o w
      = bind (V node last P o w) (fun x => Ok (hash_children l (fst x), hash_children l (snd x))).
  Proof.
    induction j as [|j IH]; intros node last P l o w Hi L.
    - simpl in *. assert (last = 0) by lia. assert (node = 0) by lia. subst. simpl Nat.add.
      destruct P as [|a P]; [reflexivity|].
      rewrite V_0. cbn [app]. rewrite V_step by lia. simpl Nat.odd. cbv iota.
      simpl Nat.div2. rewrite V_0. destruct P; reflexivity.
    - rewrite Nat.pow_succ_r' in *. pose proof (pow2_pos j).
      assert (Eo : Nat.odd (2 * 2 ^ j + node) = Nat.odd node).
      { rewrite Nat.odd_add, odd_double. destruct (Nat.odd node); reflexivity. }
      assert (Ed : forall x, Nat.div2 (2 * 2 ^ j + x) = 2 ^ j + Nat.div2 x).
      { intros x. destruct (parity_cases x) as [[k ->]|[k ->]].
        - replace (2 * 2 ^ j + 2 * k) with (2 * (2 ^ j + k)) by lia. rewrite !div2_even. reflexivity.
        - replace (2 * 2 ^ j + (2 * k + 1)) with (2 * (2 ^ j + k) + 1) by lia. rewrite !div2_odd. reflexivity. }
      assert (El : (2 * 2 ^ j + node <? 2 * 2 ^ j + last) = (node <? last)).
      { destruct (Nat.ltb_spec node last); destruct (Nat.ltb_spec (2 * 2 ^ j + node) (2 * 2 ^ j + last)); auto; lia. }
      assert (Hdl : Nat.div2 last < 2 ^ j).
      { destruct (parity_cases last) as [[k ->]|[k ->]]; rewrite ?div2_even, ?div2_odd; lia. }
      assert (Hdi : Nat.div2 node <= Nat.div2 last).
      { destruct (parity_cases node) as [[k ->]|[k ->]]; destruct (parity_cases last) as [[k' ->]|[k' ->]];
          rewrite ?div2_even, ?div2_odd; lia. }
      rewrite (V_step (2 * 2 ^ j + node)) by lia. rewrite Eo, El, !Ed.
      destruct (Nat.eq_dec last 0) as [->|].
      { assert (node = 0) by lia. subst. change (Nat.odd 0) with false. change (0 <? 0) with false. change (Nat.div2 0) with 0. cbv iota.
        rewrite IH by lia. reflexivity. }
      rewrite (V_step node last) by lia.
      destruct (Nat.odd node).
      { destruct P as [|a P]; cbn [app]; [|apply IH; lia]. rewrite V_right_nil by lia. reflexivity. }
      destruct (Nat.ltb_spec node last).
      { destruct P as [|a P]; cbn [app]; [|apply IH; lia]. rewrite V_right_nil by lia. reflexivity. }
      apply IH; lia.
  Qed.

  (** After at least one step from a node that is not last, the new hash is a digest. *)
  Lemma V_new_len : forall f node last p o w o' w', Vf f node last p o w = Ok (o', w') ->
    (node < last \/ length w = dlen) -> length w' = dlen.
  Proof.
    induction f as [|f IH]; intros node last p o w o' w' E Hc; [discriminate|]. cbn [Vf] in E.
    destruct (Nat.eqb_spec last 0).
    - destruct p; [|discriminate]. injection E as <- <-. destruct Hc; [lia|auto].
    - destruct (Nat.odd node).
      + destruct p; [discriminate|]. eapply IH; [exact E|]. right. apply H_len.
      + destruct (Nat.ltb_spec node last).
        * destruct p; [discriminate|]. eapply IH; [exact E|]. right. apply H_len.
        * destruct Hc; [lia|]. eapply IH; eauto.
  Qed.

  (** Proof elements after the first one, as a function of the leaf hashes. *)
  Fixpoint cp (fuel m : nat) (l : list bytes) : list bytes :=
    match fuel with
    | 0 => []
    | S f =>
      if m =? length l then [] else
      let k := 2 ^ Nat.log2 (length l - 1) in
      if m <=? k then cp f m (firstn k l) ++ [mthh (skipn k l)]
      else cp f (m - k) (skipn k l) ++ [mthh (firstn k l)]
    end.

  Lemma level_left t j q n : 2 ^ t * (2 * q + 1) <= 2 ^ j -> 2 ^ j <= n - 1 < 2 ^ S j ->
    t <= j /\ 2 * q < 2 ^ (j - t) /\ 2 ^ (j - t) <= (n - 1) / 2 ^ t < 2 ^ S (j - t)
    /\ (2 ^ j - 1) / 2 ^ t = 2 ^ (j - t) - 1.
  Proof.
    intros H1 H2. pose proof (pow2_pos t). pose proof (pow2_pos j).
    assert (Htj : t <= j).
    { destruct (le_lt_dec t j); auto. exfalso.
      assert (2 ^ S j <= 2 ^ t) by (apply Nat.pow_le_mono_r; lia).
      rewrite Nat.pow_succ_r' in *. nia. }
    assert (E : 2 ^ j = 2 ^ t * 2 ^ (j - t)) by (rewrite <- Nat.pow_add_r; f_equal; lia).
    pose proof (pow2_pos (j - t)).
    split; [auto|]. split; [|split; [split|]].
    - rewrite E in H1. apply Nat.mul_le_mono_pos_l in H1; lia.
    - apply Nat.div_le_lower_bound; lia.
    - apply Nat.div_lt_upper_bound; [lia|]. rewrite !Nat.pow_succ_r' in *. lia.
    - symmetry. apply Nat.div_unique with (r := 2 ^ t - 1); [lia|].
      rewrite E, Nat.mul_sub_distr_l. nia.
  Qed.

  Lemma level_right t j q m n : m = 2 ^ t * (2 * q + 1) -> 2 ^ j < m -> m < n -> n <= 2 * 2 ^ j ->
    exists q', m - 2 ^ j = 2 ^ t * (2 * q' + 1) /\ t < j /\
      2 * q = 2 ^ (j - t) + 2 * q' /\
      (n - 1) / 2 ^ t = 2 ^ (j - t) + (n - 2 ^ j - 1) / 2 ^ t /\
      2 * q' < (n - 2 ^ j - 1) / 2 ^ t < 2 ^ (j - t).
  Proof.
    intros E H1 H2 H3. pose proof (pow2_pos t). pose proof (pow2_pos j).
    assert (Htj : t < j).
    { destruct (le_lt_dec j t); auto. exfalso.
      assert (E2 : 2 ^ t = 2 ^ j * 2 ^ (t - j)) by (rewrite <- Nat.pow_add_r; f_equal; lia).
      pose proof (pow2_pos (t - j)).
      assert (m = 2 ^ j * (2 ^ (t - j) * (2 * q + 1))) by (rewrite E, E2; lia).
      set (x := 2 ^ (t - j) * (2 * q + 1)) in *.
      assert (1 < x). { apply (Nat.mul_lt_mono_pos_l (2 ^ j)); lia. }
      assert (x < 2). { apply (Nat.mul_lt_mono_pos_l (2 ^ j)); lia. }
      lia. }
    assert (Ej : 2 ^ j = 2 ^ t * (2 * 2 ^ (j - t - 1))).
    { rewrite <- Nat.pow_succ_r', <- Nat.pow_add_r. f_equal. lia. }
    assert (Ejt : 2 ^ (j - t) = 2 * 2 ^ (j - t - 1)).
    { rewrite <- Nat.pow_succ_r'. f_equal. lia. }
    set (y := 2 ^ (j - t - 1)) in *.
    assert (y <= q).
    { assert (2 ^ t * (2 * y) < 2 ^ t * (2 * q + 1)) by lia.
      apply Nat.mul_lt_mono_pos_l in H5; lia. }
    exists (q - y).
    assert (Em : m - 2 ^ j = 2 ^ t * (2 * (q - y) + 1)).
    { rewrite E, Ej, <- Nat.mul_sub_distr_l. f_equal. lia. }
    split; [exact Em|]. split; [auto|]. split; [lia|]. split.
    - replace (n - 1) with (2 ^ (j - t) * 2 ^ t + (n - 2 ^ j - 1)).
      + rewrite Nat.div_add_l by lia. reflexivity.
      + rewrite Ejt. lia.
    - split.
      + apply Nat.lt_le_trans with (2 * (q - y) + 1); [lia|]. apply Nat.div_le_lower_bound; lia.
      + apply Nat.div_lt_upper_bound; [lia|]. rewrite Ejt. lia.
  Qed.

  Lemma firstn_firstn_le (l : list bytes) a b : a <= b -> firstn a (firstn b l) = firstn a l.
  Proof. intros. rewrite firstn_firstn. f_equal. lia. Qed.

  Lemma slice_firstn (l : list bytes) a b k : b <= k -> slice (firstn k l) a b = slice l a b.
  Proof.
    intros. unfold slice. rewrite skipn_firstn_comm, firstn_firstn. f_equal. lia.
  Qed.
  Lemma slice_skipn (l : list bytes) a b k : slice (skipn k l) a b = slice l (k + a) (k + b).
  Proof. unfold slice. rewrite skipn_skipn. f_equal. lia. Qed.

  Lemma mthh_prefix_split l m : 2 <= length l -> let j := Nat.log2 (length l - 1) in
    2 ^ j < m -> m <= length l ->
    mthh (firstn m l) = hash_children (mthh (firstn (2 ^ j) l)) (mthh (firstn (m - 2 ^ j) (skipn (2 ^ j) l))).
  Proof.
    intros H2 j H3 H4. pose proof (split_facts l H2) as (A & B & C & D). fold j in A, B, C, D.
    rewrite Nat.pow_succ_r' in A.
    replace (firstn m l) with (firstn (2 ^ j) l ++ firstn (m - 2 ^ j) (skipn (2 ^ j) l)).
    - apply (mthh_app H j); auto. rewrite firstn_length. lia.
    - rewrite !firstn_slice. unfold slice at 2. simpl skipn. rewrite Nat.sub_0_r.
      replace (firstn (m - 2 ^ j) (skipn (2 ^ j) l)) with (slice l (2 ^ j) m) by reflexivity.
      symmetry. apply slice_split; lia.
  Qed.

  (** Completeness of the loop on the served proof. *)
  Lemma V_complete : forall fuel l m t q, length l < fuel -> m = 2 ^ t * (2 * q + 1) ->
    m < length l \/ (m = length l /\ q = 0) ->
    V (2 * q) ((length l - 1) / 2 ^ t) (cp fuel m l) (mthh (slice l (m - 2 ^ t) m)) (mthh (slice l (m - 2 ^ t) m))
      = Ok (mthh (firstn m l), mthh l).
  Proof.
    induction fuel as [|f IH]; intros l m t q Hf Hm Hc; [lia|]. pose proof (pow2_pos t).
    assert (Hm0 : 2 ^ t <= m) by nia.
    cbn [cp]. destruct (Nat.eqb_spec m (length l)) as [E|E].
    - destruct Hc as [|[_ ->]]; [lia|]. simpl in Hm. rewrite Nat.mul_1_r in Hm.
      rewrite <- E. replace ((m - 1) / 2 ^ t) with 0 by (symmetry; apply Nat.div_small; lia).
      simpl (2 * 0). rewrite V_0. replace (m - 2 ^ t) with 0 by lia.
      rewrite E, slice_all, firstn_all. reflexivity.
    - assert (Hlt : m < length l) by lia. clear Hc.
      pose proof (split_facts l ltac:(lia)) as (A & B & C & D).
      pose proof (mthh_prefix_split l m ltac:(lia)) as MP. cbv zeta in MP.
      rewrite (mthh_split l) by lia. set (j := Nat.log2 (length l - 1)) in *. pose proof (pow2_pos j).
      destruct (Nat.leb_spec m (2 ^ j)) as [Lm|Lm].
      + destruct (level_left t j q (length l)) as (T1 & T2 & T3 & T4); [lia|lia|].
        rewrite (V_left (j - t)) by lia.
        pose proof (IH (firstn (2 ^ j) l) m t q) as IH'. rewrite B, T4 in IH'.
        rewrite slice_firstn, firstn_firstn_le in IH' by lia.
        rewrite IH'; auto; [lia|].
        destruct (Nat.eq_dec m (2 ^ j)) as [Ej|]; [|left; lia].
        right. split; auto.
        assert (2 ^ j = 2 ^ j * (2 * 0 + 1)) by lia.
        assert (Et : j = t). { eapply (tz_unique t q j 0). lia. }
        subst t. nia.
      + rewrite Nat.pow_succ_r' in A.
        destruct (level_right t j q m (length l)) as (q' & T1 & T2 & T3 & T4 & T5); try lia.
        rewrite T3, T4. rewrite (V_right (j - t)) by lia.
        pose proof (IH (skipn (2 ^ j) l) (m - 2 ^ j) t q') as IH'. rewrite C in IH'.
        rewrite slice_skipn in IH'. 
        assert (2 ^ t <= m - 2 ^ j) by nia.
        replace (2 ^ j + (m - 2 ^ j - 2 ^ t)) with (m - 2 ^ t) in IH' by lia.
        replace (2 ^ j + (m - 2 ^ j)) with m in IH' by lia.
        rewrite IH'; [|lia|lia|left; lia].
        cbn [bind fst snd]. rewrite MP by lia. reflexivity.
  Qed.

  (** Soundness of the loop. [A] is the old tree's list of leaf hashes. *)
  Lemma V_sound : forall n l A m t q P s o, length l = n -> length A = m -> AllLen l -> AllLen A ->
    m = 2 ^ t * (2 * q + 1) -> m < n \/ (m = n /\ q = 0) ->
    V (2 * q) ((n - 1) / 2 ^ t) P s s = Ok (o, mthh l) -> o = mthh A ->
    Coll + {o = mthh (firstn m l)}.
  Proof.
    induction n as [n IH] using lt_wf_rect.
    intros l A m t q P s o Hl HA La LA Hm Hc HV Ho. pose proof (pow2_pos t).
    assert (Hm0 : 2 ^ t <= m) by nia.
    destruct (Nat.eq_dec m n) as [E|E].
    - right. assert (q = 0) by lia. subst q. simpl in Hm. rewrite Nat.mul_1_r in Hm.
      replace ((n - 1) / 2 ^ t) with 0 in HV by (symmetry; apply Nat.div_small; lia).
      simpl (2 * 0) in HV. rewrite V_0 in HV. destruct P; [|discriminate].
      rewrite E, <- Hl, firstn_all. congruence.
    - assert (Hlt : m < n) by lia. clear Hc.
      pose proof (split_facts l ltac:(lia)) as (Sa & Sb & Sc & Sd).
      pose proof (mthh_prefix_split l m ltac:(lia)) as MP. cbv zeta in MP.
      rewrite (mthh_split l) in HV by lia. rewrite Hl in *.
      set (j := Nat.log2 (n - 1)) in *. pose proof (pow2_pos j).
      destruct (le_lt_dec m (2 ^ j)) as [Lm|Lm].
      + destruct (level_left t j q n) as (T1 & T2 & T3 & T4); [lia|lia|].
        destruct (list_eq_dec bytes_eq_dec P []) as [EP|EP].
        { subst P. rewrite V_left_nil in HV by lia. discriminate. }
        destruct (list_snoc_sig P EP) as (P' & r & ->).
        rewrite (V_left (j - t)) in HV by lia.
        destruct (V (2 * q) (2 ^ (j - t) - 1) P' s s) as [[o0 w0]|] eqn:EV; [|discriminate].
        cbn [bind fst snd] in HV.
        assert (o0 = o) by congruence. subst o0.
        assert (E' : hash_children w0 r = hash_children (mthh (firstn (2 ^ j) l)) (mthh (skipn (2 ^ j) l)))
          by congruence.
        assert (Lw : length w0 = dlen).
        { destruct (Nat.eq_dec (2 * q) (2 ^ (j - t) - 1)) as [Eq|Eq].
          - assert (Z : 2 ^ (j - t) - 1 = 0).
            { destruct (Nat.eq_dec (j - t) 0) as [->|]; [reflexivity|].
              exfalso. replace (j - t) with (S (j - t - 1)) in Eq by lia.
              rewrite Nat.pow_succ_r' in Eq. pose proof (pow2_pos (j - t - 1)). lia. }
            rewrite Z, V_0 in EV. destruct P'; [|discriminate].
            assert (w0 = o) by congruence. subst w0. rewrite Ho. apply mthh_len; auto.
          - eapply V_new_len; [exact EV|]. left. lia. }
        apply children_inj in E'.
        2:{ left. rewrite mthh_len by (apply AllLen_firstn; auto). auto. }
        destruct E' as [Cc|[-> ->]]; [left; auto|].
        rewrite <- T4 in EV.
        assert (Hc' : m < 2 ^ j \/ m = 2 ^ j /\ q = 0).
        { destruct (Nat.eq_dec m (2 ^ j)) as [Ej|]; [|left; lia].
          right. split; auto.
          assert (Et : j = t). { eapply (tz_unique t q j 0). lia. }
          subst t. nia. }
        destruct (IH (2 ^ j) ltac:(lia) (firstn (2 ^ j) l) A m t q P' s o) as [Cc|F];
          auto using AllLen_firstn.
        rewrite firstn_firstn_le in F by lia. auto.
      + rewrite Nat.pow_succ_r' in Sa.
        destruct (le_lt_dec (m - 2 ^ j) 0) as [|Lm']; [lia|].
        assert (X : {q' | m - 2 ^ j = 2 ^ t * (2 * q' + 1) /\ t < j /\
            2 * q = 2 ^ (j - t) + 2 * q' /\
            (n - 1) / 2 ^ t = 2 ^ (j - t) + (n - 2 ^ j - 1) / 2 ^ t /\
            2 * q' < (n - 2 ^ j - 1) / 2 ^ t < 2 ^ (j - t)}).
        { exists (q - 2 ^ (j - t - 1)).
          destruct (level_right t j q m n) as (q' & T1 & T2 & T3 & T4 & T5); try lia.
          assert (q - 2 ^ (j - t - 1) = q') as ->; [|auto].
          replace (j - t) with (S (j - t - 1)) in T3 by lia. rewrite Nat.pow_succ_r' in T3. lia. }
        destruct X as (q' & T1 & T2 & T3 & T4 & T5). rewrite T3, T4 in HV.
        destruct (list_eq_dec bytes_eq_dec P []) as [EP|EP].
        { subst P. rewrite V_right_nil in HV by lia. discriminate. }
        destruct (list_snoc_sig P EP) as (P' & x & ->).
        rewrite (V_right (j - t)) in HV by lia.
        destruct (V (2 * q') ((n - 2 ^ j - 1) / 2 ^ t) P' s s) as [[o0 w0]|] eqn:EV; [|discriminate].
        cbn [bind fst snd] in HV.
        assert (Eo : hash_children x o0 = o) by congruence.
        assert (E' : hash_children x w0 = hash_children (mthh (firstn (2 ^ j) l)) (mthh (skipn (2 ^ j) l)))
          by congruence.
        assert (Lw : length w0 = dlen). { eapply V_new_len; [exact EV|]. left. lia. }
        apply children_inj in E'.
        2:{ right. rewrite mthh_len by (apply AllLen_skipn; auto). auto. }
        destruct E' as [Cc|[-> ->]]; [left; auto|].
        assert (EA : mthh A = hash_children (mthh (firstn (2 ^ j) A)) (mthh (skipn (2 ^ j) A))).
        { rewrite <- (firstn_skipn (2 ^ j) A) at 1.
          apply (mthh_app H j); rewrite ?firstn_length, ?skipn_length; lia. }
        rewrite Ho, EA in Eo. apply children_inj in Eo.
        2:{ left. rewrite !mthh_len by (apply AllLen_firstn; auto). auto. }
        destruct Eo as [Cc|[Eo1 Eo]]; [left; auto|].
        destruct (IH (n - 2 ^ j) ltac:(lia) (skipn (2 ^ j) l) (skipn (2 ^ j) A) (m - 2 ^ j) t q' P' s o0) as [Cc|F];
          auto using AllLen_skipn.
        { rewrite skipn_length. lia. }
        { left. lia. }
        right. rewrite MP by lia. rewrite <- F, Eo1, Eo, Ho. exact EA.
  Qed.

  (** ** The public verifier functions *)
  Lemma strip_right_ok t : forall q last f, 2 ^ t * (2 * q + 1) - 1 < f ->
    strip_right f (2 ^ t * (2 * q + 1) - 1) last = Ok (2 * q, last / 2 ^ t).
  Proof.
    induction t as [|t IH]; intros q last f Hf; (destruct f as [|f]; [lia|]); cbn [strip_right].
    - simpl (2 ^ 0). rewrite Nat.mul_1_l, Nat.add_sub, odd_double, Nat.div_1_r. reflexivity.
    - pose proof (pow2_pos t). set (x := 2 ^ t * (2 * q + 1)) in *.
      assert (1 <= x) by (unfold x; nia).
      assert (E : 2 ^ S t * (2 * q + 1) - 1 = 2 * (x - 1) + 1).
      { unfold x. rewrite Nat.pow_succ_r'. unfold x in *. lia. }
      rewrite E in *. rewrite odd_succ_double, div2_odd. unfold x. rewrite IH.
      + rewrite Nat.div2_div, Nat.div_div, <- Nat.pow_succ_r' by lia. reflexivity.
      + fold x. lia.
  Qed.

  Lemma loop2_V : forall f last p o w rest w', last < f ->
    cons_loop2 H f last p w = Ok (rest, w') ->
    {p0 | p = p0 ++ rest /\ V 0 last p0 o w = Ok (o, w')}.
  Proof.
    induction f as [|f IH]; intros last p o w rest w' Hf E; [lia|]. cbn [cons_loop2] in E.
    destruct (Nat.eqb_spec last 0) as [->|L].
    - exists []. injection E as -> ->. auto.
    - destruct p as [|x p]; [discriminate|].
      pose proof (div2_lt last ltac:(lia)).
      destruct (IH (Nat.div2 last) _ o _ _ _ ltac:(lia) E) as (p0 & -> & EV).
      exists (x :: p0). split; [reflexivity|]. rewrite V_step by lia.
      change (Nat.odd 0) with false. destruct (Nat.ltb_spec 0 last); [|lia]. exact EV.
  Qed.

  Lemma V_loop2 : forall f last p o w o' w', last < f ->
    V 0 last p o w = Ok (o', w') -> o' = o /\ cons_loop2 H f last p w = Ok ([], w').
  Proof.
    induction f as [|f IH]; intros last p o w o' w' Hf E; [lia|]. cbn [cons_loop2].
    destruct (Nat.eqb_spec last 0) as [->|L].
    - rewrite V_0 in E. destruct p; [|discriminate]. injection E as <- <-. auto.
    - rewrite V_step in E by lia. change (Nat.odd 0) with false in E.
      destruct (Nat.ltb_spec 0 last); [|lia]. destruct p as [|x p]; [discriminate|].
      pose proof (div2_lt last ltac:(lia)). apply IH; [lia|exact E].
  Qed.

  Definition loops f node last p o w : res (list bytes * bytes * bytes) :=
    bind (cons_loop1 H f node last p o w) (fun x => let '(l1, p1, oh, nh) := x in
    bind (cons_loop2 H (S l1) l1 p1 nh) (fun y => Ok (fst y, oh, snd y))).

  Lemma loops_V : forall f node last p o w rest o' w', node < f -> node <= last ->
    loops f node last p o w = Ok (rest, o', w') ->
    {p0 | p = p0 ++ rest /\ V node last p0 o w = Ok (o', w')}.
  Proof.
    induction f as [|f IH]; intros node last p o w rest o' w' Hf Hn E; [lia|].
    unfold loops in E. cbn [cons_loop1] in E.
    destruct (Nat.eqb_spec node 0) as [->|N].
    - cbn [bind] in E. destruct (cons_loop2 H (S last) last p w) as [[r nh]|] eqn:E2; [|discriminate].
      cbn [bind fst snd] in E. injection E as <- <- <-. eapply loop2_V; [|exact E2]. lia.
    - pose proof (div2_lt node ltac:(lia)).
      assert (Hd : Nat.div2 node <= Nat.div2 last).
      { destruct (parity_cases node) as [[k ->]|[k ->]]; destruct (parity_cases last) as [[k' ->]|[k' ->]];
          rewrite ?div2_even, ?div2_odd; lia. }
      destruct (Nat.odd node) eqn:O.
      + destruct p as [|x p]; [discriminate|].
        destruct (IH (Nat.div2 node) (Nat.div2 last) _ _ _ _ _ _ ltac:(lia) Hd E) as (p0 & -> & EV).
        exists (x :: p0). split; [reflexivity|]. rewrite V_step by lia. rewrite O. exact EV.
      + destruct (Nat.ltb node last) eqn:Lt.
        * destruct p as [|x p]; [discriminate|].
          destruct (IH (Nat.div2 node) (Nat.div2 last) _ _ _ _ _ _ ltac:(lia) Hd E) as (p0 & -> & EV).
          exists (x :: p0). split; [reflexivity|]. rewrite V_step by lia. rewrite O, Lt. exact EV.
        * destruct (IH (Nat.div2 node) (Nat.div2 last) _ _ _ _ _ _ ltac:(lia) Hd E) as (p0 & -> & EV).
          exists p0. split; [reflexivity|]. rewrite V_step by lia. rewrite O, Lt. exact EV.
  Qed.

  Lemma V_loops : forall f node last p o w o' w', node < f -> node <= last ->
    V node last p o w = Ok (o', w') -> loops f node last p o w = Ok ([], o', w').
  Proof.
    induction f as [|f IH]; intros node last p o w o' w' Hf Hn E; [lia|].
    unfold loops. cbn [cons_loop1].
    destruct (Nat.eqb_spec node 0) as [->|N].
    - cbn [bind]. destruct (V_loop2 (S last) last _ _ _ _ _ ltac:(lia) E) as [-> E2].
      rewrite E2. reflexivity.
    - pose proof (div2_lt node ltac:(lia)).
      assert (Hd : Nat.div2 node <= Nat.div2 last).
      { destruct (parity_cases node) as [[k ->]|[k ->]]; destruct (parity_cases last) as [[k' ->]|[k' ->]];
          rewrite ?div2_even, ?div2_odd; lia. }
      rewrite V_step in E by lia.
      destruct (Nat.odd node) eqn:O.
      + destruct p as [|x p]; [discriminate|]. apply (IH (Nat.div2 node) (Nat.div2 last) _ _ _ _ _ ltac:(lia) Hd E).
      + destruct (Nat.ltb node last) eqn:Lt.
        * destruct p as [|x p]; [discriminate|]. apply (IH (Nat.div2 node) (Nat.div2 last) _ _ _ _ _ ltac:(lia) Hd E).
        * apply (IH (Nat.div2 node) (Nat.div2 last) _ _ _ _ _ ltac:(lia) Hd E).
  Qed.

  Definition vtc_core old_size new_size old_root new_root proof : res unit :=
    bind (strip_right (S (old_size - 1)) (old_size - 1) (new_size - 1)) (fun x =>
    bind (if fst x =? 0 then Ok (old_root, proof)
          else match proof with [] => Err ProofError | y :: p => Ok (y, p) end) (fun sp =>
    bind (loops (S (fst x)) (fst x) (snd x) (snd sp) (fst sp) (fst sp)) (fun r =>
      if negb (bytes_eqb (snd r) new_root) then Err ProofError
      else if negb (bytes_eqb (snd (fst r)) old_root) then Err ConsistencyError
      else Ok tt))).

  Lemma vtc_core_eq old_size new_size old_root new_root proof :
    0 < old_size < new_size ->
    verify_tree_consistency H old_size new_size old_root new_root proof
      = vtc_core old_size new_size old_root new_root proof.
  Proof.
    intros Hs. unfold verify_tree_consistency, vtc_core, loops.
    destruct (Nat.ltb_spec new_size old_size); [lia|].
    destruct (Nat.eqb_spec old_size new_size); [lia|].
    destruct (Nat.eqb_spec old_size 0); [lia|].
    destruct (strip_right _ _ _) as [[node last]|]; [|reflexivity]. cbn [bind fst snd].
    destruct (node =? 0).
    - cbn [bind fst snd]. destruct (cons_loop1 _ _ _ _ _ _ _) as [[[[l1 p1] oh] nh]|]; [|reflexivity].
      cbn [bind]. destruct (cons_loop2 _ _ _ _ _) as [[]|]; reflexivity.
    - destruct proof as [|y p]; [reflexivity|]. cbn [bind fst snd].
      destruct (cons_loop1 _ _ _ _ _ _ _) as [[[[l1 p1] oh] nh]|]; [|reflexivity].
      cbn [bind]. destruct (cons_loop2 _ _ _ _ _) as [[]|]; reflexivity.
  Qed.

  Lemma stripped_le m n t q : m = 2 ^ t * (2 * q + 1) -> m < n -> 2 * q < (n - 1) / 2 ^ t.
  Proof.
    intros -> L. pose proof (pow2_pos t). apply Nat.lt_le_trans with (2 * q + 1); [lia|].
    apply Nat.div_le_lower_bound; lia.
  Qed.

  (** [two_adic] as data *)
  Lemma two_adic_sig n : 0 < n -> {x | n = 2 ^ fst x * (2 * snd x + 1)}.
  Proof.
    intros Hn. exists (tz n, (n / 2 ^ tz n) / 2). cbn [fst snd].
    destruct (two_adic n Hn) as (j & m & E).
    assert (Et : tz n = j) by (rewrite E; apply tz_spec). rewrite Et. pose proof (pow2_pos j).
    assert (n / 2 ^ j = 2 * m + 1) as -> by (rewrite E, Nat.mul_comm, Nat.div_mul; lia).
    replace ((2 * m + 1) / 2) with m; [exact E|].
    apply Nat.div_unique with 1; lia.
  Qed.

  Lemma consistency_sound : forall l A P,
    0 < length A < length l -> AllLen l -> AllLen A ->
    verify_tree_consistency H (length A) (length l) (mthh A) (mthh l) P = Ok tt ->
    Coll + {A = firstn (length A) l}.
  Proof.
    intros l A P Hs La LA E. rewrite vtc_core_eq in E by auto.
    destruct (two_adic_sig (length A) ltac:(lia)) as [[t q] Em]. cbn [fst snd] in Em.
    unfold vtc_core in E. rewrite Em in E at 1 2.
    rewrite strip_right_ok in E by lia. cbn [bind fst snd] in E.
    pose proof (stripped_le _ (length l) t q Em ltac:(lia)) as Hq.
    assert (X : forall s p, 
      bind (loops (S (2 * q)) (2 * q) ((length l - 1) / 2 ^ t) p s s) (fun r =>
        if negb (bytes_eqb (snd r) (mthh l)) then Err ProofError
        else if negb (bytes_eqb (snd (fst r)) (mthh A)) then Err ConsistencyError
        else Ok tt) = Ok tt -> Coll + {A = firstn (length A) l}).
    { clear E. intros s p E.
      destruct (loops _ _ _ _ _ _) as [[[rest o'] w']|] eqn:EL; [|discriminate].
      cbn [bind fst snd] in E.
      destruct (bytes_eqb w' (mthh l)) eqn:E1; [|discriminate].
      destruct (bytes_eqb o' (mthh A)) eqn:E2; [|discriminate].
      apply bytes_eqb_eq in E1. apply bytes_eqb_eq in E2. subst w'.
      destruct (loops_V (S (2 * q)) (2 * q) ((length l - 1) / 2 ^ t) _ _ _ _ _ _ ltac:(lia) ltac:(lia) EL) as (p0 & -> & EV).
      destruct (V_sound (length l) l A (length A) t q p0 s o') as [Cc|F]; auto; [lia|].
      rewrite E2 in F.
      apply (mthh_binding (length A)); auto using AllLen_firstn.
      rewrite firstn_length. lia. }
    destruct (2 * q =? 0).
    - cbn [bind fst snd] in E. eapply X; eauto.
    - destruct P as [|y p]; [discriminate|]. cbn [bind fst snd] in E. eapply X; eauto.
  Qed.

  (** The served proof is [cp], preceded by the start hash unless the old size is a power of two. *)
  Lemma cpath_false : forall fuel m l t q, length l < fuel -> m = 2 ^ t * (2 * q + 1) ->
    m < length l \/ (m = length l /\ q = 0) ->
    cpath fuel m l false = mthh (slice l (m - 2 ^ t) m) :: cp fuel m l.
  Proof.
    induction fuel as [|f IH]; intros m l t q Hf Hm Hc; [lia|]. pose proof (pow2_pos t).
    assert (2 ^ t <= m) by nia.
    cbn [Merkle_Store.cpath cp]. destruct (Nat.eqb_spec m (length l)) as [E|E].
    - destruct Hc as [|[_ ->]]; [lia|]. simpl in Hm.
      replace (m - 2 ^ t) with 0 by lia. rewrite E, slice_all. reflexivity.
    - assert (Hlt : m < length l) by lia. clear Hc.
      pose proof (split_facts l ltac:(lia)) as (A & B & C & D).
      set (j := Nat.log2 (length l - 1)) in *. pose proof (pow2_pos j).
      destruct (Nat.leb_spec m (2 ^ j)) as [Lm|Lm].
      + rewrite (IH m (firstn (2 ^ j) l) t q); auto; try lia.
        * rewrite slice_firstn by lia. reflexivity.
        * rewrite B. destruct (Nat.eq_dec m (2 ^ j)) as [Ej|]; [|left; lia].
          right. split; auto. assert (j = t) by (eapply (tz_unique t q j 0); lia). subst t. nia.
      + rewrite Nat.pow_succ_r' in A.
        destruct (level_right t j q m (length l)) as (q' & T1 & T2 & T3 & T4 & T5); try lia.
        rewrite (IH (m - 2 ^ j) (skipn (2 ^ j) l) t q'); auto; try lia.
        assert (2 ^ t <= m - 2 ^ j) by nia.
        rewrite slice_skipn. replace (2 ^ j + (m - 2 ^ j - 2 ^ t)) with (m - 2 ^ t) by lia.
        replace (2 ^ j + (m - 2 ^ j)) with m by lia. reflexivity.
  Qed.

  Lemma cpath_true : forall fuel m l t q, length l < fuel -> m = 2 ^ t * (2 * q + 1) ->
    m < length l \/ (m = length l /\ q = 0) ->
    cpath fuel m l true
      = if q =? 0 then cp fuel m l else mthh (slice l (m - 2 ^ t) m) :: cp fuel m l.
  Proof.
    induction fuel as [|f IH]; intros m l t q Hf Hm Hc; [lia|]. pose proof (pow2_pos t).
    assert (2 ^ t <= m) by nia.
    cbn [Merkle_Store.cpath cp]. destruct (Nat.eqb_spec m (length l)) as [E|E].
    - destruct Hc as [|[_ ->]]; [lia|]. reflexivity.
    - assert (Hlt : m < length l) by lia. clear Hc.
      pose proof (split_facts l ltac:(lia)) as (A & B & C & D).
      set (j := Nat.log2 (length l - 1)) in *. pose proof (pow2_pos j).
      destruct (Nat.leb_spec m (2 ^ j)) as [Lm|Lm].
      + rewrite (IH m (firstn (2 ^ j) l) t q); auto; try lia.
        * rewrite slice_firstn by lia. destruct (q =? 0); reflexivity.
        * rewrite B. destruct (Nat.eq_dec m (2 ^ j)) as [Ej|]; [|left; lia].
          right. split; auto. assert (j = t) by (eapply (tz_unique t q j 0); lia). subst t. nia.
      + rewrite Nat.pow_succ_r' in A.
        destruct (level_right t j q m (length l)) as (q' & T1 & T2 & T3 & T4 & T5); try lia.
        pose proof (pow2_pos (j - t)).
        destruct (Nat.eqb_spec q 0); [lia|].
        rewrite (cpath_false f (m - 2 ^ j) (skipn (2 ^ j) l) t q'); auto; try lia.
        assert (2 ^ t <= m - 2 ^ j) by nia.
        rewrite slice_skipn. replace (2 ^ j + (m - 2 ^ j - 2 ^ t)) with (m - 2 ^ t) by lia.
        replace (2 ^ j + (m - 2 ^ j)) with m by lia. reflexivity.
  Qed.

  Lemma consistency_complete l m : 0 < m <= length l ->
    verify_tree_consistency H m (length l) (mthh (firstn m l)) (mthh l) (cpath (S (length l)) m l true) = Ok tt.
  Proof.
    intros Hm. destruct (Nat.eq_dec m (length l)) as [->|Hne].
    { unfold verify_tree_consistency. rewrite Nat.ltb_irrefl, Nat.eqb_refl, firstn_all.
      assert (bytes_eqb (mthh l) (mthh l) = true) as -> by (apply bytes_eqb_eq; auto). reflexivity. }
    rewrite vtc_core_eq by lia. unfold vtc_core.
    destruct (two_adic m ltac:(lia)) as (t & q & Em). pose proof (pow2_pos t).
    rewrite Em at 1 2. rewrite strip_right_ok by lia. cbn [bind fst snd].
    pose proof (stripped_le _ (length l) t q Em ltac:(lia)) as Hq.
    rewrite (cpath_true _ _ _ t q) by (auto; lia).
    pose proof (V_complete (S (length l)) l m t q ltac:(lia) Em ltac:(lia)) as EV.
    apply (V_loops (S (2 * q))) in EV; [|lia|lia].
    assert (Ef : forall x, bytes_eqb x x = true) by (intros; apply bytes_eqb_eq; auto).
    destruct (Nat.eqb_spec q 0) as [->|Hq0].
    - simpl (2 * 0) in *. rewrite Nat.eqb_refl. cbn [bind fst snd].
      simpl in Em. replace (m - 2 ^ t) with 0 in EV by lia. rewrite <- firstn_slice in EV.
      rewrite EV. cbn [bind fst snd]. rewrite !Ef. reflexivity.
    - destruct (Nat.eqb_spec (2 * q) 0); [lia|]. cbn [bind fst snd].
      rewrite EV. cbn [bind fst snd]. rewrite !Ef. reflexivity.
  Qed.

  (** The path returned by [append] is the audit path of the new leaf. *)
  Lemma ipath_last l h : ipath (S (length l)) (length l) (l ++ [h]) = rev (peaks l).
  Proof.
    remember (length l) as n. revert l Heqn.
    induction n as [n IH] using lt_wf_ind. intros l E.
    destruct (list_eq_dec bytes_eq_dec l []) as [->|Hl].
    { subst n. reflexivity. }
    assert (Hn : 0 < length l) by (destruct l; [congruence|simpl; lia]).
    assert (EL : length (l ++ [h]) = S n) by (rewrite app_length, <- E; simpl; lia).
    rewrite peaks_unfold by auto. cbn [rev].
    pose proof (Nat.log2_spec (length l) Hn) as [B1 B2]. rewrite Nat.pow_succ_r' in B2.
    pose proof (ipath_right n (l ++ [h]) ltac:(lia)) as IR. cbv zeta in IR.
    rewrite EL in IR. replace (S n - 1) with (length l) in IR by lia.
    rewrite IR by lia.
    set (k := 2 ^ Nat.log2 (length l)) in *.
    assert (1 <= k) by apply pow2_pos.
    rewrite firstn_app, skipn_app. replace (k - length l) with 0 by lia. cbn [firstn skipn].
    rewrite app_nil_r. f_equal.
    pose proof (IH (n - k) ltac:(lia) (skipn k l) ltac:(rewrite skipn_length; lia)) as IH'.
    replace (S n - k) with (S (n - k)) by lia. exact IH'.
  Qed.
End Verify.
