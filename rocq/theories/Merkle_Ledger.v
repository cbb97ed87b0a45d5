(** Facts about a tree and its store grown together by [append]. *)
From Coq Require Import List Arith NArith Lia Bool.
From Verif Require Import Base Bits_Model Bits_Proofs Merkle_Spec Merkle_Model Merkle_Proofs Merkle_Store Merkle_Verify.
Import ListNotations.

Section Ledger.
  Variable H : bytes -> bytes.
  Notation hash_leaf := (hash_leaf H).
  Notation mthh := (mthh H).

  Definition MtOf (ts : tree * store) (lh : list bytes) : Prop :=
    TreeOf H (fst ts) lh /\ StoreOf H (snd ts) lh.

  Lemma MtOf_empty : MtOf (empty_tree, empty_store) [].
  Proof. split; [apply TreeOf_empty|apply StoreOf_empty]. Qed.

  Lemma mt_append_ok ts lh leaf : MtOf ts lh ->
    exists ts', mt_append H ts leaf = Ok (rev (peaks H lh), ts') /\ MtOf ts' (lh ++ [hash_leaf leaf]).
  Proof.
    intros [Ht Hs]. unfold mt_append.
    destruct (append_ok H (fst ts) lh leaf Ht) as (t' & E & T'). rewrite E. cbn [bind].
    unfold writeLeaves. cbn [fold_left].
    destruct (StoreOf_append H (snd ts) lh (hash_leaf leaf) Hs) as (s' & E' & S'). rewrite E'.
    cbn [bind]. exists (t', s'). split; [reflexivity|]. split; auto.
  Qed.

  Lemma mt_appends_ok leaves : forall ts lh, MtOf ts lh ->
    exists ts', mt_appends H ts leaves = Ok ts' /\ MtOf ts' (lh ++ map hash_leaf leaves).
  Proof.
    induction leaves as [|x xs IH]; intros ts lh M; cbn [mt_appends map].
    - exists ts. rewrite app_nil_r. auto.
    - destruct (mt_append_ok ts lh x M) as (ts1 & E1 & M1). rewrite E1. cbn [bind].
      destruct (IH ts1 _ M1) as (ts2 & E2 & M2). exists ts2. split; [exact E2|].
      rewrite <- app_assoc in M2. exact M2.
  Qed.

  Lemma mt_appends_det leaves ts : mt_appends H (empty_tree, empty_store) leaves = Ok ts ->
    MtOf ts (map hash_leaf leaves).
  Proof.
    intros E. destruct (mt_appends_ok leaves _ _ MtOf_empty) as (ts' & E' & M). simpl in M.
    rewrite E in E'. injection E' as <-. exact M.
  Qed.

  Lemma tree_run_ok ops : forall t l, TreeOf H t l ->
    exists t', tree_run H t ops = Ok t' /\
      TreeOf H t' (l ++ map hash_leaf (flat_map (fun o => match o with OpAppend x => [x] | OpExtend xs => xs end) ops)).
  Proof.
    induction ops as [|o ops IH]; intros t l T; cbn [tree_run flat_map].
    - exists t. simpl. rewrite app_nil_r. auto.
    - assert (X : exists t1, tree_step H t o = Ok t1 /\
         TreeOf H t1 (l ++ map hash_leaf (match o with OpAppend x => [x] | OpExtend xs => xs end))).
      { destruct o as [x|xs]; cbn [tree_step].
        - destruct (append_ok H t l x T) as (t' & E & T'). rewrite E. cbn [bind]. eauto.
        - apply extend_ok. auto. }
      destruct X as (t1 & E1 & T1). rewrite E1. cbn [bind].
      destruct (IH t1 _ T1) as (t2 & E2 & T2). exists t2. split; [exact E2|].
      rewrite map_app, app_assoc. exact T2.
  Qed.

  Lemma verify_inclusion_calc leaf i P n r :
    verify_leaf_inclusion H leaf i P n r = Ok tt <->
    i < n /\ calc H i (n - 1) P (hash_leaf leaf) = Ok r.
  Proof.
    unfold verify_leaf_inclusion, verify_leaf_hash_inclusion, calc.
    destruct (Nat.leb_spec n i); [split; [discriminate|lia]|].
    destruct (calc_root H (S (n - 1)) i (n - 1) P (hash_leaf leaf)) as [x|]; cbn [bind].
    - destruct (bytes_eqb x r) eqn:E.
      + apply bytes_eqb_eq in E. subst. tauto.
      + split; [discriminate|]. intros [_ F]. injection F as ->.
        assert (bytes_eqb r r = true) by (apply bytes_eqb_eq; auto). congruence.
    - split; [discriminate|]. intros [_ F]. discriminate.
  Qed.

  Lemma nth_map_leaf D i d : nth_error D i = Some d -> nth i (map hash_leaf D) [] = hash_leaf d.
  Proof.
    intros E. apply nth_error_nth. erewrite map_nth_error; eauto.
  Qed.

  Lemma inclusion_complete ts leaves i n leaf : MtOf ts (map hash_leaf leaves) ->
    i < n -> n <= length leaves -> nth_error leaves i = Some leaf ->
    exists P, inclusion_proof H (snd ts) i n = Ok P /\
      P = ipath H n i (firstn n (map hash_leaf leaves)) /\
      verify_leaf_inclusion H leaf i P n (mthh (map hash_leaf (firstn n leaves))) = Ok tt.
  Proof.
    intros [_ SO] Hi Hn N.
    pose proof (StoreOf_Reads H _ _ SO) as R. rewrite map_length in R.
    assert (L : length (firstn n (map hash_leaf leaves)) = n) by (rewrite firstn_length, map_length; lia).
    exists (ipath H n i (firstn n (map hash_leaf leaves))).
    assert (F : ipath H (S n) i (firstn n (map hash_leaf leaves)) = ipath H n i (firstn n (map hash_leaf leaves))).
    { rewrite (ipath_fuel H (S n)) by lia. rewrite L. reflexivity. }
    split; [|split; [reflexivity|]].
    - rewrite inclusion_proof_ok with (lh := map hash_leaf leaves); auto.
      + rewrite F. reflexivity.
      + destruct R as [R1 R2]. split; auto. intros; eapply R2; eauto. lia.
      + rewrite map_length. auto.
    - apply verify_inclusion_calc. split; auto.
      pose proof (calc_complete H (S n) (firstn n (map hash_leaf leaves)) i ltac:(lia) ltac:(lia)) as C.
      rewrite L in C. rewrite nth_firstn_lt in C by auto.
      rewrite (nth_map_leaf _ _ _ N) in C. rewrite <- F, C. rewrite <- firstn_map. reflexivity.
  Qed.

  Lemma audit_path_length_ok : forall f i last P h r, calc_root H f i last P h = Ok r ->
    length P = audit_path_length_f f i last.
  Proof.
    induction f as [|f IH]; intros i last P h r E; [discriminate|].
    cbn [calc_root audit_path_length_f] in *. destruct (0 <? last).
    - destruct P as [|a P]; [discriminate|].
      destruct (Nat.odd i); cbn [orb].
      + apply IH in E. simpl. lia.
      + destruct (i <? last); apply IH in E; simpl in *; lia.
    - destruct P; [reflexivity|discriminate].
  Qed.

  (** ** Ranges already served do not change when the store grows *)
  Definition kv_le (m m' : kv) := forall k v, kv_get k m = Some v -> kv_get k m' = Some v.

  Lemma readOne_le m m' p v : kv_le m m' -> readOne m p = Ok v -> readOne m' p = Ok v.
  Proof.
    intros L. unfold readOne. destruct (p <? 1); [discriminate|].
    destruct (kv_get p m) eqn:E; [|discriminate]. rewrite (L _ _ E). auto.
  Qed.

  Lemma mapM_le {A B} (f g : A -> res B) l r :
    (forall x y, f x = Ok y -> g x = Ok y) -> mapM f l = Ok r -> mapM g l = Ok r.
  Proof.
    intros Hfg. revert r. induction l as [|x l IH]; simpl; intros r E; auto.
    destruct (f x) eqn:Ex; [|discriminate]. rewrite (Hfg _ _ Ex). cbn [bind] in *.
    destruct (mapM f l); [|discriminate]. rewrite (IH _ eq_refl). auto.
  Qed.

  Lemma merkle_tree_hash_le s s' a b r : kv_le (s_leaves s) (s_leaves s') -> kv_le (s_nodes s) (s_nodes s') ->
    merkle_tree_hash H s a b = Ok r -> merkle_tree_hash H s' a b = Ok r.
  Proof.
    intros L1 L2. unfold merkle_tree_hash. destruct (negb (a <? b)); auto.
    destruct (b - a =? 1); [apply readOne_le; auto|].
    destruct (getPath b a) as [[ls ns]|]; [|discriminate]. cbn [bind].
    destruct (readOne (s_leaves s) b) eqn:E1; [|discriminate]. cbn [bind].
    destruct (mapM (readOne (s_leaves s)) ls) eqn:E2; [|discriminate]. cbn [bind].
    destruct (mapM (readOne (s_nodes s)) ns) eqn:E3; [|discriminate]. cbn [bind].
    rewrite (readOne_le _ _ _ _ L1 E1). cbn [bind].
    rewrite (mapM_le _ (readOne (s_leaves s')) _ _ (fun x y => readOne_le _ _ x y L1) E2). cbn [bind].
    rewrite (mapM_le _ (readOne (s_nodes s')) _ _ (fun x y => readOne_le _ _ x y L2) E3). auto.
  Qed.

  Lemma dlist_le l l' : kv_le (dlist l) (dlist (l ++ l')).
  Proof.
    intros [|k] v E.
    - rewrite kv_get_dlist0 in E. discriminate.
    - rewrite kv_get_dlist in *. rewrite nth_error_app1; auto. apply nth_error_Some. congruence.
  Qed.

  Lemma StoreOf_le s s' lh lh' : StoreOf H s lh -> StoreOf H s' (lh ++ lh') ->
    kv_le (s_leaves s) (s_leaves s') /\ kv_le (s_nodes s) (s_nodes s').
  Proof.
    intros (A1 & A2 & A3) (B1 & B2 & B3). rewrite A1, A2, B1, B2. split; [apply dlist_le|].
    assert (exists r, all_nodes H (lh ++ lh') = all_nodes H lh ++ r) as [r ->]; [|apply dlist_le].
    revert lh A1 A2 A3 B1 B2 B3. clear. intros lh _ _ _ _ _ _. revert lh.
    induction lh' as [|x lh' IH] using rev_ind; intros lh.
    - exists []. rewrite !app_nil_r. reflexivity.
    - destruct (IH lh) as [r E]. rewrite app_assoc, all_nodes_snoc, E. rewrite <- app_assoc. eauto.
  Qed.
End Ledger.
