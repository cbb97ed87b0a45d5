(** The model of the trie code computes the functions of Trie_Abs.v on content-addressed
    stores without hash collisions. *)
From Coq Require Import List Arith NArith Bool Lia.
From Verif Require Import Base Rlp_Model Rlp_Props Trie_Model Trie_Spec Trie_Abs.
Import ListNotations.

Section Refine.
  Variable H : bytes -> bytes.
  Hypothesis Hlen : forall x, length (H x) = 32.
  Notation no_collision := (collision_free H).

  Lemma H_not_root x : H x <> rootHashKey.
  Proof. intros E. apply (f_equal (@length N)) in E. rewrite Hlen in E. discriminate. Qed.

  (** ** The store *)
  Definition ca (d : kv) : Prop := forall k v, In (k, v) d -> k = rootHashKey \/ k = H v.
  Definition ext (d d' : kv) : Prop := exists new, d' = new ++ d /\ Forall (fun e => fst e = H (snd e)) new.

  Lemma ext_refl d : ext d d.
  Proof. exists []. split; auto. Qed.
  Lemma ext_trans d1 d2 d3 : ext d1 d2 -> ext d2 d3 -> ext d1 d3.
  Proof.
    intros (n1 & -> & F1) (n2 & -> & F2). exists (n2 ++ n1). rewrite app_assoc. split; auto.
    apply Forall_app. auto.
  Qed.
  Lemma ext_incl d d' : ext d d' -> incl d d'.
  Proof. intros (n & -> & _) x Hx. apply in_or_app. auto. Qed.
  Lemma ext_ca d d' : ext d d' -> ca d -> ca d'.
  Proof.
    intros (n & -> & F) C k v Hin. apply in_app_or in Hin as [Hin|Hin]; auto.
    rewrite Forall_forall in F. right. apply (F (k, v) Hin).
  Qed.
  Lemma nocoll_incl d d' : incl d d' -> no_collision d' -> no_collision d.
  Proof.
    intros I N k a b Ha Hb. apply N; [destruct Ha as [Ha|Ha]|destruct Hb as [Hb|Hb]]; try (left; assumption); right; auto.
  Qed.
  Lemma nocoll_ext d d' : ext d d' -> no_collision d' -> no_collision d.
  Proof. intros E. apply nocoll_incl, ext_incl, E. Qed.

  Lemma kv_get_in d k v : kv_get d k = Ok v -> In (k, v) d.
  Proof.
    induction d as [|[k' v'] d IH]; cbn [kv_get]; [discriminate|].
    destruct (bytes_eqb k' k) eqn:E; intros E2.
    - apply bytes_eqb_eq in E as ->. injection E2 as ->. left. auto.
    - right. auto.
  Qed.
  Lemma kv_get_some d k v : In (k, v) d -> exists v', kv_get d k = Ok v'.
  Proof.
    induction d as [|[k' v'] d IH]; [intros []|]. cbn [kv_get]. intros [E|Hin].
    - injection E as -> ->. rewrite bytes_eqb_refl. eauto.
    - destruct (bytes_eqb k' k); eauto.
  Qed.
  Lemma kv_get_hash d v : no_collision d -> In (H v, v) d -> kv_get d (H v) = Ok v.
  Proof.
    intros N Hin. destruct (kv_get_some _ _ _ Hin) as [v' E]. rewrite E. f_equal.
    apply kv_get_in in E. apply (N (H v)); [right; auto|right; auto|]. apply H_not_root.
  Qed.
  Lemma kv_get_ext d d' k : ext d d' -> k = rootHashKey -> kv_get d' k = kv_get d k.
  Proof.
    intros (n & -> & F) ->. induction n as [|[k v] n IH]; auto. inversion F as [|? ? E F']; subst.
    cbn [app kv_get]. simpl in E. rewrite bytes_eqb_neq; auto. rewrite E. apply H_not_root.
  Qed.

  (** ** Computations *)
  Definition grows {A} (m : M A) : Prop := forall d, ext d (fst (m d)).
  Definition wp {A} (m : M A) (d : kv) (Q : A -> kv -> Prop) : Prop :=
    no_collision (fst (m d)) -> match snd (m d) with Ok x => Q x (fst (m d)) | Err _ => False end.

  Lemma grows_ret {A} (x : A) : grows (ret x).
  Proof. intros d. apply ext_refl. Qed.
  Lemma grows_fail {A} e : grows (@fail A e).
  Proof. intros d. apply ext_refl. Qed.
  Lemma grows_lift {A} (r : res A) : grows (lift r).
  Proof. intros d. apply ext_refl. Qed.
  Lemma grows_load i : grows (load i).
  Proof. intros d. apply ext_refl. Qed.
  Lemma grows_put v : grows (put (H v) v).
  Proof. intros d. exists [(H v, v)]. split; auto. Qed.
  Lemma grows_bind {A B} (m : M A) (f : A -> M B) : grows m -> (forall x, grows (f x)) -> grows (bindM m f).
  Proof.
    intros Gm Gf d. unfold bindM. specialize (Gm d). destruct (m d) as [d1 [x|e]]; simpl in *; auto.
    eapply ext_trans; [exact Gm|apply Gf].
  Qed.
  Lemma grows_encode n r : grows (encode_node H n r).
  Proof.
    unfold encode_node. destruct (item_eqb n BLANK_NODE); [apply grows_ret|].
    apply grows_bind; [apply grows_lift|]. intros x. destruct (_ && _); [apply grows_ret|].
    apply grows_bind; [apply grows_put|]. intros; apply grows_ret.
  Qed.
  Ltac grow_with t := repeat first
    [ t | progress cbv zeta | apply grows_ret | apply grows_fail | apply grows_lift | apply grows_load | apply grows_encode
    | apply grows_bind; [|intro] | assumption
    | match goal with |- grows (match ?x with _ => _ end) => destruct x end ].
  Ltac grow := grow_with fail.

  Lemma grows_finish p ck nn enc : grows (finish_kv_node H p ck nn enc).
  Proof. unfold finish_kv_node. grow. Qed.
  Lemma grows_update_kv upd node inner key v : (forall n k, grows (upd n k)) ->
    grows (update_kv_node H upd node inner key v).
  Proof. intros G. unfold update_kv_node. grow_with ltac:(first [apply G|apply grows_finish]). Qed.
  Lemma grows_update fuel : forall node key v, grows (update_f H fuel node key v).
  Proof.
    induction fuel as [|fuel IH]; intros node key v; cbn [update_f];
      grow_with ltac:(first [apply IH | apply grows_update_kv; intros; apply IH]).
  Qed.
  Lemma grows_normalize node : grows (normalize_branch_node H node).
  Proof. unfold normalize_branch_node. grow. Qed.
  Lemma grows_delete_branch del node key : (forall n k, grows (del n k)) -> grows (delete_branch_node H del node key).
  Proof. intros G. unfold delete_branch_node. grow_with ltac:(first [apply G|apply grows_normalize]). Qed.
  Lemma grows_delete_kv del node leaf key : (forall n k, grows (del n k)) -> grows (delete_kv_node H del node leaf key).
  Proof. intros G. unfold delete_kv_node. grow_with ltac:(apply G). Qed.
  Lemma grows_delete fuel : forall node key, grows (delete_f H fuel node key).
  Proof.
    induction fuel as [|fuel IH]; intros node key; cbn [delete_f];
      grow_with ltac:(first [apply grows_delete_branch|apply grows_delete_kv]; intros; apply IH).
  Qed.

  Lemma wp_ret {A} (x : A) d (Q : A -> kv -> Prop) : Q x d -> wp (ret x) d Q.
  Proof. intros q _. exact q. Qed.
  Lemma wp_lift {A} (x : A) r d (Q : A -> kv -> Prop) : r = Ok x -> Q x d -> wp (lift r) d Q.
  Proof. intros -> q _. exact q. Qed.
  Lemma wp_bind {A B} (m : M A) (f : A -> M B) d Q : grows m -> (forall x, grows (f x)) ->
    wp m d (fun x d1 => ext d d1 -> wp (f x) d1 Q) -> wp (bindM m f) d Q.
  Proof.
    intros Gm Gf W. unfold wp, bindM in *. specialize (Gm d). destruct (m d) as [d1 [x|e]]; cbn [fst snd] in *.
    - intros N. specialize (Gf x d1). apply W; auto. eapply nocoll_ext; eauto.
    - exact W.
  Qed.
  Lemma wp_lift_bind {A B} (x : A) r (f : A -> M B) d Q : r = Ok x -> wp (f x) d Q -> wp (bindM (lift r) f) d Q.
  Proof. intros -> W. exact W. Qed.
  Lemma wp_conseq {A} (m : M A) d (Q Q' : A -> kv -> Prop) : wp m d Q -> (forall x d', Q x d' -> Q' x d') -> wp m d Q'.
  Proof. unfold wp. intros W C N. specialize (W N). destruct (snd (m d)); auto. Qed.

  (** ** Trees as nodes *)
  Definition pk (n : nibbles) : bytes := match pack_nibbles n with Ok s => s | Err _ => [] end.
  Definition ref (i : item) : item := if length (rlp i) <? 32 then i else Str (H (rlp i)).
  Fixpoint item_of (t : tnode) : item :=
    match t with
    | TLeaf k v => Lst [Str (pk (key_of k true)); Str v]
    | TExt k c => Lst [Str (pk (key_of k false)); ref (item_of c)]
    | TBranch cs v => Lst (map (fun o => match o with Some c => ref (item_of c) | None => BLANK_NODE end) cs ++ [Str v])
    end.
  Definition oitem (o : option tnode) : item := match o with Some t => item_of t | None => BLANK_NODE end.
  Definition oref (o : option tnode) : item := match o with Some t => ref (item_of t) | None => BLANK_NODE end.
  Lemma item_branch cs v : item_of (TBranch cs v) = Lst (map oref cs ++ [Str v]).
  Proof. reflexivity. Qed.

  Lemma pack_ok n term : is_nibbles n -> key_of n term <> [] ->
    pack_nibbles (key_of n term) = Ok (pk (key_of n term)) /\
    unpack_to_nibbles (pk (key_of n term)) = Ok (key_of n term) /\ length (pk (key_of n term)) <= length n + 3.
  Proof.
    intros Hn Hne. destruct (C16_pack_roundtrip n term Hn Hne) as (s & E & _ & U).
    unfold pk. rewrite E. split; auto. split; auto.
    unfold unpack_to_nibbles in U. pose proof (bin_to_nibbles_length s) as L.
    destruct (bin_to_nibbles s) as [|f o]; [discriminate|].
    assert (U' : forall x y : nibbles, Ok x = Ok y -> x = y) by congruence. apply U' in U. clear U'.
    apply (f_equal (@length N)) in U. cbn [length] in L.
    assert (length (key_of n term) <= length n + 1).
    { destruct term; unfold key_of; [rewrite app_length; simpl|]; lia. }
    destruct (N.testbit f 0), (N.testbit f 1); cbv iota in U; rewrite skipn_length in U; try rewrite app_length in U;
      cbn [length] in U; lia.
  Qed.
  Lemma key_true_ne n : key_of n true <> [].
  Proof. unfold key_of. destruct n; discriminate. Qed.

  (** *** Sizes *)
  Definition LIM : N := (2 ^ 59)%N.
  Definition bnd (t : tnode) : Prop := forall key, is_nibbles key -> tget t key <> [] ->
    (lenN key <= LIM /\ lenN (tget t key) <= LIM)%N.

  Lemma length_prefix_le n off : (lenN (length_prefix n off) <= 9)%N.
  Proof.
    unfold length_prefix. destruct (n <? 56)%N; [cbv; discriminate|]. 
    pose proof (be_digits_length 8 n []) as L. fold (int_to_big_endian n) in L.
    set (s := int_to_big_endian n) in *. clearbody s. cbv zeta. unfold lenN. cbn [length] in *. lia.
  Qed.
  Lemma rlp_str_len s : (lenN (rlp (Str s)) <= lenN s + 9)%N.
  Proof.
    pose proof (length_prefix_le (lenN s) 128) as L.
    destruct s as [|b [|c s]]; cbn [rlp]; try destruct (b <? 128)%N; rewrite ?lenN_app; lia.
  Qed.
  Lemma rlp_lst_len l B : (forall i, In i l -> (lenN (rlp i) <= B)%N) -> (lenN (rlp (Lst l)) <= lenN l * B + 9)%N.
  Proof.
    intros Hl. cbn [rlp]. rewrite lenN_app. pose proof (length_prefix_le (lenN (concat (map rlp l))) 192) as L.
    assert (lenN (concat (map rlp l)) <= lenN l * B)%N; [|lia]. clear L.
    induction l as [|x l IH]; [cbv; discriminate|]. cbn [map concat]. rewrite lenN_app.
    assert (lenN (rlp x) <= B)%N by (apply Hl; left; auto).
    assert (lenN (concat (map rlp l)) <= lenN l * B)%N by (apply IH; intros; apply Hl; right; auto).
    replace (lenN (x :: l)) with (1 + lenN l)%N by (unfold lenN; cbn [length]; lia). lia.
  Qed.
  Lemma ref_len i : (lenN (rlp (ref i)) <= 41)%N.
  Proof.
    unfold ref. destruct (Nat.ltb_spec (length (rlp i)) 32) as [L|L]; [unfold lenN; lia|].
    pose proof (rlp_str_len (H (rlp i))). unfold lenN in *. rewrite Hlen in *. lia.
  Qed.
  Lemma oref_len o : (lenN (rlp (oref o)) <= 41)%N.
  Proof. destruct o; [apply ref_len|cbv; discriminate]. Qed.

  Lemma node_len t : wf t -> bnd t -> (lenN (rlp (item_of t)) < 256 ^ 8)%N.
  Proof.
    intros W B. unfold bnd, LIM in B. change (256 ^ 8)%N with 18446744073709551616%N. change (2 ^ 59)%N with 576460752303423488%N in B.
    inversion W as [k v Wk Wv|k c Wk Wn Wb Wc|cs v Wl Wcs We]; subst.
    - destruct (pack_ok k true Wk (key_true_ne k)) as (_ & _ & L).
      destruct (B k Wk) as [B1 B2]; [rewrite tget_leaf, bytes_eqb_refl; auto|].
      rewrite tget_leaf, bytes_eqb_refl in B2. cbn [item_of].
      eapply N.le_lt_trans; [apply (rlp_lst_len _ (576460752303423488 + 20))|]; [|unfold lenN; cbn [length]; lia].
      intros i [<-|[<-|[]]]; (eapply N.le_trans; [apply rlp_str_len|]); unfold lenN in *; lia.
    - destruct (pack_ok k false Wk) as (_ & _ & L); [exact Wn|].
      destruct (wf_nonempty c Wc) as (q & Hq & G).
      destruct (B (k ++ q)) as [B1 _]; [apply is_nibbles_app; auto|rewrite tget_ext, starts_with_app, skipn_app_exact; auto|].
      rewrite lenN_app in B1. cbn [item_of].
      eapply N.le_lt_trans; [apply (rlp_lst_len _ (576460752303423488 + 41))|]; [|unfold lenN; cbn [length]; lia].
      intros i [<-|[<-|[]]]; [eapply N.le_trans; [apply rlp_str_len|]|eapply N.le_trans; [apply ref_len|]]; unfold lenN in *; lia.
    - rewrite item_branch.
      assert (lenN v <= 576460752303423488)%N as Bv.
      { destruct v as [|b v]; [cbv; discriminate|]. apply (B []); [constructor|]. rewrite tget_branch_nil. discriminate. }
      eapply N.le_lt_trans; [apply (rlp_lst_len _ (576460752303423488 + 41))|].
      + intros i Hi. apply in_app_or in Hi as [Hi|[<-|[]]].
        * apply in_map_iff in Hi as (o & <- & _). pose proof (oref_len o). lia.
        * pose proof (rlp_str_len v). lia.
      + unfold lenN. rewrite app_length, map_length, Wl. cbn [length]. lia.
  Qed.
  Lemma node_encode t : wf t -> bnd t -> rlp_encode (item_of t) = Ok (rlp (item_of t)).
  Proof. intros. apply C15_encodes, node_len; auto. Qed.
  Lemma node_decode t : wf t -> bnd t -> rlp_decode (rlp (item_of t)) = Ok (item_of t).
  Proof. intros. apply C15_roundtrip, node_encode; auto. Qed.

  Lemma item_of_lst t : exists l, item_of t = Lst l /\ 2 <= length l \/ item_of t = Lst l /\ 1 <= length l.
  Proof. destruct t; [| |eexists (_ ++ _)]; try (eexists; left; split; [reflexivity|simpl; lia]).
    right. rewrite item_branch. split; [reflexivity|]. rewrite app_length. simpl. lia. Qed.
  Lemma item_not_blank t : item_eqb (item_of t) BLANK_NODE = false.
  Proof. unfold item_eqb. destruct (item_eq_dec _ _) as [E|]; auto. destruct t; discriminate. Qed.

  Lemma bnd_ext k c : is_nibbles k -> bnd (TExt k c) -> bnd c.
  Proof.
    intros Hk B key Hkey G. destruct (B (k ++ key)) as [B1 B2].
    - apply is_nibbles_app; auto.
    - rewrite tget_ext, starts_with_app, skipn_app_exact. auto.
    - rewrite tget_ext, starts_with_app, skipn_app_exact in B2. rewrite lenN_app in B1. split; [lia|auto].
  Qed.
  Lemma bnd_child cs v c : length cs = 16 -> bnd (TBranch cs v) -> In (Some c) cs -> bnd c.
  Proof.
    intros L B Hin key Hk G. apply (In_nth _ _ None) in Hin as (i & Hi & Ei).
    destruct (B (N.of_nat i :: key)) as [B1 B2].
    - constructor; [lia|auto].
    - rewrite tget_branch, Nat2N.id, Ei. auto.
    - rewrite tget_branch, Nat2N.id, Ei in B2. unfold lenN in *. cbn [length] in B1. split; [lia|auto].
  Qed.
  Definition obnd (o : option tnode) : Prop := match o with Some t => bnd t | None => True end.

  (** *** Reading nodes *)
  Definition loads (d : kv) (i : item) : Prop := 32 <= length (rlp i) -> In (H (rlp i), rlp i) d.
  Inductive stored (d : kv) : tnode -> Prop :=
  | st_leaf k v : stored d (TLeaf k v)
  | st_ext k c : loads d (item_of c) -> stored d c -> stored d (TExt k c)
  | st_branch cs v : (forall c, In (Some c) cs -> loads d (item_of c)) -> (forall c, In (Some c) cs -> stored d c) ->
      stored d (TBranch cs v).
  Definition kept (d : kv) (t : tnode) : Prop := loads d (item_of t) /\ stored d t.
  Definition okept (d : kv) (o : option tnode) : Prop := match o with Some t => kept d t | None => True end.
  Definition ostored (d : kv) (o : option tnode) : Prop := match o with Some t => stored d t | None => True end.

  Lemma loads_incl d d' i : incl d d' -> loads d i -> loads d' i.
  Proof. intros I L Hl. apply I, L, Hl. Qed.
  Lemma stored_incl d d' t : incl d d' -> stored d t -> stored d' t.
  Proof.
    intros I. induction t as [k v|k c IH|cs v IH] using tnode_ind'; intros St; inversion St as [|? ? L S1|? ? L S1]; subst.
    - constructor.
    - constructor; auto. eapply loads_incl; eauto.
    - constructor; intros c Hc; [eapply loads_incl; eauto|auto].
  Qed.
  Lemma kept_incl d d' t : incl d d' -> kept d t -> kept d' t.
  Proof. intros I [L S1]. split; [eapply loads_incl; eauto|eapply stored_incl; eauto]. Qed.

  Definition grabbed (t : tnode) : list item := if length (rlp (item_of t)) <? 32 then [] else [item_of t].

  Lemma H_cons x : exists b l, H x = b :: l.
  Proof. pose proof (Hlen x) as L. destruct (H x) as [|b l]; [discriminate|eauto]. Qed.
  Lemma decode_hash ok d h : h <> [] -> decode_to_node ok d (Str h) =
    bind (kv_get d h) (fun b => bind (rlp_decode b) (fun o => if ok o then Ok (o, [o]) else Err ProofError)).
  Proof. destruct h; [congruence|reflexivity]. Qed.

  Lemma decode_ref ok d t : wf t -> bnd t -> no_collision d -> loads d (item_of t) ->
    (forall i, In i (grabbed t) -> ok i = true) ->
    decode_to_node ok d (ref (item_of t)) = Ok (item_of t, grabbed t).
  Proof.
    intros W B N L Hok. unfold ref, grabbed in *. destruct (Nat.ltb_spec (length (rlp (item_of t))) 32) as [Hl|Hl].
    - destruct t; reflexivity.
    - rewrite decode_hash by (destruct (H_cons (rlp (item_of t))) as (? & ? & ->); discriminate).
      rewrite kv_get_hash by auto. cbn [bind]. rewrite node_decode by auto. cbn [bind].
      rewrite Hok by (left; auto). reflexivity.
  Qed.
  Lemma wp_load t d (Q : item -> kv -> Prop) : wf t -> bnd t -> loads d (item_of t) ->
    Q (item_of t) d -> wp (load (ref (item_of t))) d Q.
  Proof.
    intros W B L q N. unfold load, reads in *. cbn [fst snd] in *. rewrite decode_ref; auto.
  Qed.

  Lemma wp_encode t root d : wf t -> bnd t ->
    wp (encode_node H (item_of t) root) d (fun e d' =>
      e = (if root then Str (H (rlp (item_of t))) else ref (item_of t)) /\
      if root then In (H (rlp (item_of t)), rlp (item_of t)) d' else loads d' (item_of t)).
  Proof.
    intros W B. unfold encode_node. rewrite item_not_blank.
    apply (wp_lift_bind (rlp (item_of t))); [apply node_encode; auto|]. unfold ref, loads.
    destruct root; cbn [negb]; rewrite ?andb_false_r, ?andb_true_r.
    - intros _. cbn. auto.
    - destruct (Nat.ltb_spec (length (rlp (item_of t))) 32) as [Hl|Hl]; intros _; cbn; split; auto; lia.
  Qed.

  Lemma wp_encode_bind {B} t d (f : item -> M B) Q : wf t -> bnd t -> (forall x, grows (f x)) ->
    (forall d', ext d d' -> loads d' (item_of t) -> wp (f (ref (item_of t))) d' Q) ->
    wp (bindM (encode_node H (item_of t) false) f) d Q.
  Proof.
    intros W Bd G K. apply wp_bind; [apply grows_encode|auto|].
    eapply wp_conseq; [apply wp_encode; auto|]. cbn. intros x d' [-> L] E. auto.
  Qed.
  Lemma wp_load_bind {B} t d (f : item -> M B) Q : wf t -> bnd t -> (forall x, grows (f x)) -> loads d (item_of t) ->
    wp (f (item_of t)) d Q -> wp (bindM (load (ref (item_of t))) f) d Q.
  Proof.
    intros W Bd G L K. apply wp_bind; [apply grows_load|auto|]. apply wp_load; auto.
  Qed.
  Lemma wp_oload_bind {B} o d (f : item -> M B) Q : owf o -> obnd o -> (forall x, grows (f x)) ->
    match o with Some t => loads d (item_of t) | None => True end ->
    wp (f (oitem o)) d Q -> wp (bindM (load (oref o)) f) d Q.
  Proof.
    destruct o as [t|]; cbn [owf obnd oitem oref]; intros W Bd G L K; [apply wp_load_bind; auto|].
    exact K.
  Qed.

  (** *** Node types *)
  Lemma type_leaf k x : is_nibbles k -> get_node_type (Lst [Str (pk (key_of k true)); x]) = Ok NT_LEAF.
  Proof.
    intros Hk. destruct (pack_ok k true Hk (key_true_ne k)) as (_ & U & _).
    cbn [get_node_type unpack_item]. rewrite U. cbn [bind]. rewrite has_terminator_key by auto. reflexivity.
  Qed.
  Lemma type_ext k x : is_nibbles k -> k <> [] -> get_node_type (Lst [Str (pk (key_of k false)); x]) = Ok NT_EXTENSION.
  Proof.
    intros Hk Hn. destruct (pack_ok k false Hk Hn) as (_ & U & _).
    cbn [get_node_type unpack_item]. rewrite U. cbn [bind]. rewrite has_terminator_key by auto. reflexivity.
  Qed.
  Lemma type_branch l : length l = 17 -> get_node_type (Lst l) = Ok NT_BRANCH.
  Proof. intros L. destruct l as [|a [|b [|c l]]]; try discriminate. cbn [get_node_type]. rewrite L. reflexivity. Qed.
  Definition ntype (t : tnode) : node_type := match t with TLeaf _ _ => NT_LEAF | TExt _ _ => NT_EXTENSION | TBranch _ _ => NT_BRANCH end.
  Lemma node_type_of t : wf t -> get_node_type (item_of t) = Ok (ntype t).
  Proof.
    intros W. inversion W as [k v Wk Wv|k c Wk Wn Wb Wc|cs v Wl Wcs We]; subst; cbn [ntype].
    - apply type_leaf; auto.
    - apply type_ext; auto.
    - apply type_branch. rewrite app_length, map_length, Wl. reflexivity.
  Qed.
  Lemma key_nibbles_of k term x : is_nibbles k -> key_of k term <> [] ->
    key_nibbles (Lst [Str (pk (key_of k term)); x]) = Ok k.
  Proof.
    intros Hk Hn. destruct (pack_ok k term Hk Hn) as (_ & U & _). unfold key_nibbles.
    cbn [items_of get_item nth_error bind unpack_item]. rewrite U. cbn [bind]. rewrite without_terminator_key; auto.
  Qed.
  Lemma get_item_nth l i x : nth_error l i = Some x -> get_item l i = Ok x.
  Proof. unfold get_item. intros ->. reflexivity. Qed.
  Lemma branch_child cs v i : length cs = 16 -> i < 16 ->
    get_item (items_of (item_of (TBranch cs v))) i = Ok (oref (nth i cs None)).
  Proof.
    intros L Hi. apply get_item_nth. rewrite item_branch. cbn [items_of].
    rewrite nth_error_app1 by (rewrite map_length; lia).
    rewrite nth_error_map. rewrite (nth_error_nth' cs None) by lia. reflexivity.
  Qed.
  Lemma branch_value cs v : length cs = 16 -> get_item (items_of (item_of (TBranch cs v))) 16 = Ok (Str v).
  Proof.
    intros L. apply get_item_nth. rewrite item_branch. cbn [items_of].
    rewrite nth_error_app2; rewrite map_length, L; [reflexivity|lia].
  Qed.
  Lemma set_nth_last {A} i (x y : A) l : length l = i -> set_nth i x (l ++ [y]) = l ++ [x].
  Proof.
    intros <-. unfold set_nth. rewrite app_length. cbn [length].
    destruct (Nat.ltb_spec (length l) (length l + 1)); [|lia].
    rewrite firstn_app, Nat.sub_diag, firstn_all, app_nil_r. f_equal. f_equal.
    apply skipn_all2. rewrite app_length. simpl. lia.
  Qed.
  Lemma branch_set_value cs v v' : length cs = 16 ->
    Lst (set_nth 16 (Str v') (items_of (item_of (TBranch cs v)))) = item_of (TBranch cs v').
  Proof. intros L. rewrite !item_branch. cbn [items_of]. rewrite set_nth_last; auto. rewrite map_length. auto. Qed.
  Lemma branch_set_child cs v i o : length cs = 16 -> i < 16 ->
    Lst (set_nth i (oref o) (items_of (item_of (TBranch cs v)))) = item_of (TBranch (set_nth i o cs) v).
  Proof.
    intros L Hi. rewrite !item_branch. cbn [items_of]. rewrite set_nth_app by (rewrite map_length; lia).
    rewrite map_set_nth. reflexivity.
  Qed.
  Lemma blank16 : repeat BLANK_NODE 16 = map oref empty16.
  Proof. reflexivity. Qed.
  Lemma blank17 : repeat BLANK_NODE 17 = map oref empty16 ++ [Str []].
  Proof. reflexivity. Qed.

  Lemma with_nibbles k : is_nibbles k -> with_terminator k = key_of k true.
  Proof. intros Hk. unfold with_terminator. rewrite has_terminator_nibbles; auto. Qed.
  Lemma without_nibbles k : is_nibbles k -> without_terminator k = key_of k false.
  Proof. intros Hk. unfold without_terminator. rewrite has_terminator_nibbles; auto. Qed.

  (** ** Lookup *)

  (** The nodes met on the way to a key *)
  Fixpoint tpath (t : tnode) (key : nibbles) : list item :=
    match t with
    | TLeaf _ _ => []
    | TExt k c => if starts_with key k then grabbed c ++ tpath c (skipn (length k) key) else []
    | TBranch cs v =>
      match key with
      | [] => []
      | k0 :: ks =>
        (fix go cs i := match cs, i with
                      | [], _ => []
                      | o :: _, 0 => match o with Some c => grabbed c ++ tpath c ks | None => [] end
                      | _ :: cs', S i' => go cs' i'
                      end) cs (N.to_nat k0)
      end
    end.
  Definition opath (o : option tnode) (key : nibbles) : list item :=
    match o with Some t => grabbed t ++ tpath t key | None => [] end.
  Lemma tpath_branch cs v k0 ks : tpath (TBranch cs v) (k0 :: ks) = opath (nth (N.to_nat k0) cs None) ks.
  Proof.
    cbn [tpath]. generalize (N.to_nat k0) as i. induction cs as [|o cs IH]; intros [|i]; auto. cbn [nth]. apply IH.
  Qed.

  (** A lookup only needs the nodes on its path *)
  Definition in_store (d : kv) (i : item) : Prop := In (H (rlp i), rlp i) d.
  Lemma grabbed_loads d t : (forall i, In i (grabbed t) -> in_store d i) -> loads d (item_of t).
  Proof.
    intros G L. unfold grabbed in G. destruct (Nat.ltb_spec (length (rlp (item_of t))) 32); [lia|].
    apply (G (item_of t)). left. reflexivity.
  Qed.
  Lemma loads_grabbed d t : loads d (item_of t) -> forall i, In i (grabbed t) -> in_store d i.
  Proof.
    intros L i Hi. unfold grabbed in Hi. destruct (Nat.ltb_spec (length (rlp (item_of t))) 32) as [|G]; [destruct Hi|].
    destruct Hi as [<-|[]]. apply L. auto.
  Qed.

  Theorem get_path ok t : wf t -> bnd t -> forall fuel d key, is_nibbles key -> length key < fuel ->
    no_collision d -> (forall i, In i (tpath t key) -> in_store d i) -> (forall i, In i (tpath t key) -> ok i = true) ->
    get_f ok fuel d (item_of t) key = Ok (Some (Str (tget t key)), tpath t key).
  Proof.
    induction t as [k v|k c IH|cs v IH] using tnode_ind'; intros W B fuel d key Hk Hf N St Hok;
      destruct fuel as [|fuel]; try lia; cbn [get_f]; rewrite (node_type_of _ W); cbn [bind ntype];
      inversion W as [? ? Wk Wv|? ? Wk Wn Wb Wc|? ? Wl Wcs We]; subst.
    - cbn [item_of]. rewrite key_nibbles_of by (auto using key_true_ne). cbn [bind items_of get_item nth_error].
      rewrite tget_leaf. destruct (bytes_eqb key k); reflexivity.
    - cbn [item_of]. rewrite key_nibbles_of by auto. cbn [bind items_of get_item nth_error].
      rewrite tget_ext. cbn [tpath] in Hok, St |- *. destruct (starts_with key k) eqn:Es; [|reflexivity].
      apply starts_with_spec in Es as [r ->]. rewrite skipn_app_exact in *.
      pose proof (bnd_ext k c Wk B) as Bc.
      rewrite decode_ref; auto; [|apply grabbed_loads; intros; apply St; apply in_or_app; auto
                                 |intros; apply Hok; apply in_or_app; auto]. cbn [bind].
      apply is_nibbles_app in Hk as [_ Hr]. rewrite app_length in Hf.
      assert (length r < fuel) by (destruct k; [congruence|cbn [length] in Hf; lia]).
      rewrite IH; [reflexivity|auto..]; intros; [apply St|apply Hok]; apply in_or_app; auto.
    - destruct key as [|k0 ks].
      + rewrite branch_value by auto. reflexivity.
      + rewrite tpath_branch in *. apply nibble_lt in Hk as [Hk0 Hks].
        rewrite branch_child by auto. rewrite tget_branch. cbn [bind].
        assert (Hin : In (nth (N.to_nat k0) cs None) cs) by (apply nth_In; lia).
        destruct (nth (N.to_nat k0) cs None) as [c|]; cbn [oref oget opath] in *.
        * pose proof (bnd_child cs v c Wl B Hin) as Bc.
          rewrite decode_ref; auto; [|apply grabbed_loads; intros; apply St; apply in_or_app; auto
                                     |intros; apply Hok; apply in_or_app; auto]. cbn [bind].
          cbn [length] in Hf. assert (length ks < fuel) by lia.
          rewrite IH; [reflexivity|auto..]; intros; [apply St|apply Hok]; apply in_or_app; auto.
        * cbn [decode_to_node BLANK_NODE bind]. destruct fuel; [cbn [length] in Hf; lia|]. reflexivity.
  Qed.

  Lemma stored_path d t : stored d t -> forall key i, In i (tpath t key) -> in_store d i.
  Proof.
    induction t as [k v|k c IH|cs v IH] using tnode_ind'; intros St key i Hi;
      inversion St as [|? ? L1 S1|? ? L1 S1]; subst.
    - destruct Hi.
    - cbn [tpath] in Hi. destruct (starts_with key k); [|destruct Hi]. apply in_app_or in Hi as [Hi|Hi].
      + eapply loads_grabbed; eauto.
      + eapply IH; eauto.
    - destruct key as [|k0 ks]; [destruct Hi|]. rewrite tpath_branch in Hi.
      destruct (Nat.ltb_spec (N.to_nat k0) (length cs)) as [L|L].
      + pose proof (nth_In cs None L) as Hin. destruct (nth (N.to_nat k0) cs None) as [c|]; [|destruct Hi].
        cbn [opath] in Hi. apply in_app_or in Hi as [Hi|Hi].
        * eapply loads_grabbed; eauto.
        * eapply IH; eauto.
      + rewrite nth_overflow in Hi by auto. destruct Hi.
  Qed.

  Theorem get_refines ok t : wf t -> bnd t -> forall fuel d key, is_nibbles key -> length key < fuel ->
    no_collision d -> stored d t -> (forall i, In i (tpath t key) -> ok i = true) ->
    get_f ok fuel d (item_of t) key = Ok (Some (Str (tget t key)), tpath t key).
  Proof. intros. apply get_path; auto. intros. eapply stored_path; eauto. Qed.

  (** A lookup in another store, from the same node, gives the same value or fails *)
  Theorem get_sound ok t : wf t -> bnd t -> forall d d', no_collision (d ++ d') -> stored d t ->
    forall fuel key v g, is_nibbles key -> get_f ok fuel d' (item_of t) key = Ok (v, g) -> v = Some (Str (tget t key)).
  Proof.
    intros W B d d' N.
    assert (Dec : forall c n g, wf c -> bnd c -> loads d (item_of c) -> decode_to_node ok d' (ref (item_of c)) = Ok (n, g) ->
      n = item_of c).
    { intros c n g Wc Bc L. unfold ref. destruct (Nat.ltb_spec (length (rlp (item_of c))) 32) as [Hl|Hl].
      - unfold decode_to_node. destruct c; cbn [item_of]; intros E; injection E as <- _; reflexivity.
      - rewrite decode_hash by (destruct (H_cons (rlp (item_of c))) as (? & ? & ->); discriminate).
        destruct (kv_get d' (H (rlp (item_of c)))) as [b|e] eqn:Eb; cbn [bind]; [|discriminate].
        apply kv_get_in in Eb.
        assert (b = rlp (item_of c)) as ->.
        { apply (N (H (rlp (item_of c)))); [right; apply in_or_app; auto|right; apply in_or_app; left; apply L; auto|apply H_not_root]. }
        rewrite node_decode by auto. cbn [bind]. destruct (ok (item_of c)); [|discriminate]. intros E. injection E as <- _. reflexivity. }
    induction t as [k v|k c IH|cs v IH] using tnode_ind'; intros St fuel key val g Hk;
      (destruct fuel as [|fuel]; [discriminate|]); cbn [get_f]; rewrite (node_type_of _ W); cbn [bind ntype];
      inversion W as [? ? Wk Wv|? ? Wk Wn Wb Wc|? ? Wl Wcs We]; subst;
      inversion St as [|? ? L1 S1|? ? L1 S1]; subst.
    - cbn [item_of]. rewrite key_nibbles_of by (auto using key_true_ne). cbn [bind items_of get_item nth_error].
      rewrite tget_leaf. intros E. injection E as <- _. destruct (bytes_eqb key k); reflexivity.
    - cbn [item_of]. rewrite key_nibbles_of by auto. cbn [bind items_of get_item nth_error].
      rewrite tget_ext. destruct (starts_with key k) eqn:Es; [|intros E; injection E as <- _; reflexivity].
      apply starts_with_spec in Es as [r ->]. rewrite skipn_app_exact in *.
      pose proof (bnd_ext k c Wk B) as Bc. apply is_nibbles_app in Hk as [_ Hr].
      destruct (decode_to_node ok d' (ref (item_of c))) as [[n gn]|e] eqn:Ed; cbn [bind]; [|discriminate].
      apply Dec in Ed as ->; auto. destruct (get_f ok fuel d' (item_of c) r) as [[v1 g1]|e] eqn:Eg; cbn [bind]; [|discriminate].
      intros E. injection E as <- _. eapply IH; eauto.
    - destruct key as [|k0 ks].
      + rewrite branch_value by auto. cbn [bind]. intros E. injection E as <- _. reflexivity.
      + apply nibble_lt in Hk as [Hk0 Hks].
        rewrite branch_child by auto. rewrite tget_branch. cbn [bind].
        assert (Hin : In (nth (N.to_nat k0) cs None) cs) by (apply nth_In; lia).
        destruct (nth (N.to_nat k0) cs None) as [c|]; cbn [oref oget] in *.
        * pose proof (bnd_child cs v c Wl B Hin) as Bc.
          destruct (decode_to_node ok d' (ref (item_of c))) as [[n gn]|e] eqn:Ed; cbn [bind]; [|discriminate].
          apply Dec in Ed as ->; auto. destruct (get_f ok fuel d' (item_of c) ks) as [[v1 g1]|e] eqn:Eg; cbn [bind]; [|discriminate].
          intros E. injection E as <- _. eapply IH; eauto.
        * cbn [decode_to_node BLANK_NODE bind]. destruct fuel; [discriminate|]. cbn. intros E. injection E as <- _. reflexivity.
  Qed.

  (** ** Update *)
  Lemma bnd_upd t key v : wf t -> bnd t -> is_nibbles key -> (lenN key <= LIM)%N -> (lenN v <= LIM)%N -> bnd (tupd t key v).
  Proof.
    intros W B Hk Lk Lv q Hq. rewrite tget_tupd by auto. destruct (bytes_eqb q key) eqn:E; auto.
    apply bytes_eqb_eq in E as ->. auto.
  Qed.
  Lemma bnd_leaf k v : (lenN k <= LIM)%N -> (lenN v <= LIM)%N -> bnd (TLeaf k v).
  Proof.
    intros Lk Lv q Hq. rewrite tget_leaf. destruct (bytes_eqb q k) eqn:E; [|congruence].
    apply bytes_eqb_eq in E as ->. auto.
  Qed.

  Lemma firstn_pfx (pfx ra : nibbles) : firstn (length pfx) (pfx ++ ra) = pfx.
  Proof. rewrite firstn_app, Nat.sub_diag, firstn_O, app_nil_r. apply firstn_all. Qed.
  Lemma pre_inv pfx ra n : is_nibbles pfx -> wf (pre (length pfx) (pfx ++ ra) n) -> bnd (pre (length pfx) (pfx ++ ra) n) ->
    wf n /\ bnd n.
  Proof.
    intros Hp W B. unfold pre in *. rewrite firstn_pfx in *. destruct (0 <? length pfx); auto.
    inversion W; subst. split; auto. apply (bnd_ext pfx); auto.
  Qed.

  Lemma wp_finish pfx ra n enc d : is_nibbles pfx ->
    wf (pre (length pfx) (pfx ++ ra) n) -> bnd (pre (length pfx) (pfx ++ ra) n) -> stored d n ->
    (enc = true -> loads d (item_of n)) ->
    wp (finish_kv_node H (length pfx) (pfx ++ ra) (item_of n) enc) d
      (fun i d' => i = item_of (pre (length pfx) (pfx ++ ra) n) /\ kept d' (pre (length pfx) (pfx ++ ra) n)).
  Proof.
    intros Hp W B St Le. destruct (pre_inv pfx ra n Hp W B) as [Wn Bn].
    unfold finish_kv_node, pre in *. rewrite firstn_pfx in *. destruct (Nat.ltb_spec 0 (length pfx)) as [L|L].
    - assert (Hne : pfx <> []) by (destruct pfx; [simpl in L; lia|discriminate]).
      destruct (pack_ok pfx false Hp Hne) as (P & _ & _).
      apply (wp_lift_bind _ _ _ _ _ P).
      apply wp_encode_bind; auto; [intros; grow|]. intros d1 E1 L1.
      cbv zeta. change (Lst [Str (pk (key_of pfx false)); ref (item_of n)]) with (item_of (TExt pfx n)).
      apply wp_encode_bind; auto; [intros; grow|]. intros d2 E2 L2. apply wp_ret. split; auto. split; auto.
      constructor; [eapply loads_incl; [apply (ext_incl _ _ E2)|auto]|].
      eapply stored_incl; [|exact St]. intros x Hx. apply (ext_incl _ _ E2), (ext_incl _ _ E1), Hx.
    - destruct enc.
      + apply wp_ret. split; auto. split; auto.
      + apply wp_encode_bind; auto; [intros; grow|]. intros d1 E1 L1. apply wp_ret. split; auto. split; auto.
        eapply stored_incl; [apply (ext_incl _ _ E1)|auto].
  Qed.

  Lemma stored_set d i c cs v : loads d (item_of c) -> stored d c -> stored d (TBranch cs v) ->
    forall v', stored d (TBranch (set_nth i (Some c) cs) v').
  Proof.
    intros L S1 S2 v'. inversion S2 as [| |? ? L2 S3]; subst. constructor; intros x Hx;
      apply set_nth_In in Hx as [E|Hx]; try (injection E as ->); auto.
  Qed.
  Lemma stored_empty d v : stored d (TBranch empty16 v).
  Proof. constructor; intros c Hc; apply repeat_spec in Hc; discriminate. Qed.

  Lemma fork_item_nil c0 sub v : N.to_nat c0 < 16 ->
    Lst (set_nth 16 (Str v) (set_nth (N.to_nat c0) (ref (item_of sub)) (repeat BLANK_NODE 17))) = item_of (fork c0 sub [] v).
  Proof.
    intros Hc. rewrite blank17. rewrite set_nth_app by (rewrite map_length; unfold empty16; rewrite repeat_length; lia).
    rewrite set_nth_last by (rewrite set_nth_length, map_length; reflexivity).
    cbn [fork]. rewrite item_branch, map_set_nth. reflexivity.
  Qed.
  Lemma fork_item_cons c0 sub r0 rs v : N.to_nat c0 < 16 -> N.to_nat r0 < 16 ->
    Lst (set_nth (N.to_nat r0) (ref (item_of (TLeaf rs v))) (set_nth (N.to_nat c0) (ref (item_of sub)) (repeat BLANK_NODE 17)))
    = item_of (fork c0 sub (r0 :: rs) v).
  Proof.
    intros Hc Hr. rewrite blank17.
    assert (L : length (map oref empty16) = 16) by reflexivity.
    rewrite set_nth_app by lia. rewrite set_nth_app by (rewrite set_nth_length; lia).
    cbn [fork]. rewrite item_branch, !map_set_nth. reflexivity.
  Qed.

  (** The rest of [_update_kv_node] once the old child is in place *)
  Lemma wp_fork pfx c0 cs sub rk v d : is_nibbles pfx -> N.to_nat c0 < 16 -> is_nibbles rk ->
    match rk with y :: _ => c0 <> y | [] => True end ->
    wf (pre (length pfx) (pfx ++ c0 :: cs) (fork c0 sub rk v)) -> bnd (pre (length pfx) (pfx ++ c0 :: cs) (fork c0 sub rk v)) ->
    loads d (item_of sub) -> stored d sub ->
    wp match rk with
       | [] => finish_kv_node H (length pfx) (pfx ++ c0 :: cs)
                 (Lst (set_nth 16 (Str v) (set_nth (N.to_nat c0) (ref (item_of sub)) (repeat BLANK_NODE 17)))) false
       | r0 :: rs =>
         bindM (lift (pack_nibbles (with_terminator rs))) (fun pk =>
         bindM (encode_node H (Lst [Str pk; Str v]) false) (fun e2 =>
         finish_kv_node H (length pfx) (pfx ++ c0 :: cs)
           (Lst (set_nth (N.to_nat r0) e2 (set_nth (N.to_nat c0) (ref (item_of sub)) (repeat BLANK_NODE 17)))) false))
       end d
      (fun i d' => i = item_of (pre (length pfx) (pfx ++ c0 :: cs) (fork c0 sub rk v)) /\
                   kept d' (pre (length pfx) (pfx ++ c0 :: cs) (fork c0 sub rk v))).
  Proof.
    intros Hp Hc Hr D W B Ls Ss. destruct (pre_inv _ _ _ Hp W B) as [Wf Bf]. destruct rk as [|r0 rs].
    - rewrite fork_item_nil by auto. apply wp_finish; auto; [|discriminate].
      cbn [fork]. apply stored_set with (v := v); auto. apply stored_empty.
    - apply nibble_lt in Hr as [Hr0 Hrs]. rewrite with_nibbles by auto.
      destruct (pack_ok rs true Hrs (key_true_ne rs)) as (P & _ & _).
      apply (wp_lift_bind _ _ _ _ _ P). cbn [fork] in Wf, Bf.
      change (Lst [Str (pk (key_of rs true)); Str v]) with (item_of (TLeaf rs v)).
      assert (Hin : In (Some (TLeaf rs v)) (set_nth (N.to_nat r0) (Some (TLeaf rs v)) (set_nth (N.to_nat c0) (Some sub) empty16))).
      { replace (Some (TLeaf rs v)) with (nth (N.to_nat r0) (set_nth (N.to_nat r0) (Some (TLeaf rs v)) (set_nth (N.to_nat c0) (Some sub) empty16)) None) at 1.
        - apply nth_In. rewrite !set_nth_length. unfold empty16. rewrite repeat_length. lia.
        - rewrite nth_set_nth; [rewrite Nat.eqb_refl; auto|]. rewrite !set_nth_length. unfold empty16. rewrite repeat_length. lia. }
      inversion Wf as [| |? ? Wl Wcs We]; subst.
      apply wp_encode_bind; [auto|apply (bnd_child _ _ _ Wl Bf Hin)|intros; apply grows_finish|].
      intros d1 E1 L1. rewrite fork_item_cons by auto. pose proof (ext_incl _ _ E1) as I1.
      apply wp_finish; auto; [|discriminate]. cbn [fork]. apply stored_set with (v := []); auto; [constructor|].
      apply stored_set with (v := []); [eapply loads_incl; eauto|eapply stored_incl; eauto|apply stored_empty].
  Qed.

  Theorem update_refines fuel : forall t key v d, wf t -> bnd t -> stored d t -> is_nibbles key -> length key < fuel ->
    v <> [] -> (lenN key <= LIM)%N -> (lenN v <= LIM)%N ->
    wp (update_f H fuel (item_of t) key v) d
      (fun i d' => i = item_of (tupd t key v) /\ kept d' (tupd t key v)).
  Proof.
    induction fuel as [|fuel IH]; intros t key v d W B St Hk Hf Hv Lk Lv; [lia|].
    pose proof (proj1 (wf_tupd t W key v Hk Hv)) as Wu. pose proof (bnd_upd t key v W B Hk Lk Lv) as Bu.
    cbn [update_f]. apply (wp_lift_bind _ _ _ _ _ (node_type_of t W)).
    inversion W as [k val Wk Wv|k c Wk Wn Wb Wc|cs val Wl Wcs We]; subst; cbn [ntype];
      inversion St as [|? ? L1 S1|? ? L1 S1]; subst.
    - (* leaf *)
      unfold update_kv_node. cbn [item_of].
      apply (wp_lift_bind k); [apply key_nibbles_of; auto using key_true_ne|].
      apply (wp_lift_bind (Str (pk (key_of k true)))); [reflexivity|].
      apply (wp_lift_bind (Str val)); [reflexivity|]. cbv zeta.
      cbn [tupd] in Wu, Bu |- *.
      destruct (skipn_firstn_lcp k key) as (pfx & ra & rb & E1 & E2 & F & Sk1 & Sk2 & L & D).
      rewrite Sk1, Sk2, <- L in *. rewrite E1 in *. rewrite E2 in *. clear E1 E2 F Sk1 Sk2 L.
      apply is_nibbles_app in Wk as Wk'. destruct Wk' as [Hp Hra].
      apply is_nibbles_app in Hk as Hk'. destruct Hk' as [_ Hrb].
      destruct ra as [|c0 cs].
      + destruct rb as [|r0 rs].
        * change (Lst [Str (pk (key_of (pfx ++ []) true)); Str v]) with (item_of (TLeaf (pfx ++ []) v)).
          apply wp_encode_bind; auto; [intros; grow|]. intros d1 _ Ld. apply wp_ret. split; auto. split; auto. constructor.
        * apply nibble_lt in Hrb as [Hr0 Hrs]. rewrite with_nibbles by auto.
          destruct (pack_ok rs true Hrs (key_true_ne rs)) as (P & _ & _).
          apply (wp_lift_bind _ _ _ _ _ P).
          change (Lst [Str (pk (key_of rs true)); Str v]) with (item_of (TLeaf rs v)).
          destruct (pre_inv _ _ _ Hp Wu Bu) as [Wf Bf].
          apply wp_encode_bind; [constructor; auto| |intros; apply grows_finish|].
          { apply bnd_leaf; auto. rewrite lenN_app in Lk. unfold lenN in *. cbn [length] in Lk. lia. }
          intros d1 E1 Ld.
          replace (Lst (set_nth (N.to_nat r0) (ref (item_of (TLeaf rs v))) (repeat BLANK_NODE 16) ++ [Str val]))
            with (item_of (TBranch (set_nth (N.to_nat r0) (Some (TLeaf rs v)) empty16) val))
            by (rewrite item_branch, map_set_nth; reflexivity).
          apply wp_finish; auto; [|discriminate]. apply stored_set with (v := val); auto; [constructor|apply stored_empty].
      + apply nibble_lt in Hra as [Hc0 Hcs]. rewrite andb_false_r. cbn [negb adapt_terminator].
        rewrite with_nibbles by auto.
        destruct (pre_inv _ _ _ Hp Wu Bu) as [Wf Bf].
        assert (Wsub : wf (TLeaf cs val)) by (constructor; auto).
        assert (Bsub : bnd (TLeaf cs val)).
        { intros q Hq. rewrite tget_leaf. destruct (bytes_eqb q cs) eqn:E; [|congruence]. intros _.
          apply bytes_eqb_eq in E as ->. destruct (B (pfx ++ c0 :: cs) Wk) as [B1 B2].
          - rewrite tget_leaf, bytes_eqb_refl. auto.
          - rewrite tget_leaf, bytes_eqb_refl in B2. rewrite lenN_app in B1. unfold lenN in *. cbn [length] in B1. split; [lia|auto]. }
        apply wp_bind; [grow|intros; destruct rb; [apply grows_finish|grow_with ltac:(apply grows_finish)]|].
        destruct (pack_ok cs true Hcs (key_true_ne cs)) as (P & _ & _).
        apply (wp_lift_bind _ _ _ _ _ P).
        change (Lst [Str (pk (key_of cs true)); Str val]) with (item_of (TLeaf cs val)).
        eapply wp_conseq; [apply wp_encode; auto|]. cbn beta iota. intros e d1 [-> Ld] E1.
        destruct rb.
        * apply (wp_fork pfx c0 cs (TLeaf cs val) [] v d1); auto. constructor.
        * apply (wp_fork pfx c0 cs (TLeaf cs val) (n :: rb) v d1); auto. constructor.
    - (* extension *)
      unfold update_kv_node. cbn [item_of].
      apply (wp_lift_bind k); [apply key_nibbles_of; auto|].
      apply (wp_lift_bind (Str (pk (key_of k false)))); [reflexivity|].
      apply (wp_lift_bind (ref (item_of c))); [reflexivity|]. cbv zeta.
      pose proof (bnd_ext k c Wk B) as Bc.
      cbn [tupd] in Wu, Bu |- *.
      destruct (skipn_firstn_lcp k key) as (pfx & ra & rb & E1 & E2 & F & Sk1 & Sk2 & L & D).
      rewrite Sk1, Sk2, <- L in *. rewrite E1 in *. rewrite E2 in *. clear E1 E2 F Sk1 Sk2 L.
      apply is_nibbles_app in Wk as Wk'. destruct Wk' as [Hp Hra].
      apply is_nibbles_app in Hk as Hk'. destruct Hk' as [_ Hrb].
      destruct ra as [|c0 cs].
      + rewrite app_nil_r in *.
        assert (Hlen' : length rb < fuel).
        { rewrite app_length in Hf. destruct pfx; [congruence|]. cbn [length] in Hf. lia. }
        rewrite lenN_app in Lk.
        assert (Lrb : (lenN rb <= LIM)%N) by lia.
        assert (Goal' : wp (bindM (load (ref (item_of c))) (fun sub => bindM (update_f H fuel sub rb v)
                  (fun nn => finish_kv_node H (length pfx) pfx nn true))) d
                (fun i d' => i = item_of (pre (length pfx) pfx (tupd c rb v)) /\ kept d' (pre (length pfx) pfx (tupd c rb v)))).
        { apply wp_load_bind; auto; [intros; grow_with ltac:(first [apply grows_update|apply grows_finish])|].
          apply wp_bind; [apply grows_update|intros; apply grows_finish|].
          eapply wp_conseq; [apply IH; auto|]. cbn beta. intros nn d1 [-> [K1 K2]] E1.
          rewrite <- (app_nil_r pfx) in Wu, Bu |- *.
          assert (W' : wf (pre (length pfx) (pfx ++ []) (tupd c rb v))) by (rewrite app_nil_r in *; auto).
          assert (B' : bnd (pre (length pfx) (pfx ++ []) (tupd c rb v))) by (rewrite app_nil_r in *; auto).
          pose proof (wp_finish pfx [] (tupd c rb v) true d1 Hp W' B' K2 (fun _ => K1)) as Fn.
          rewrite app_nil_r in *. exact Fn. }
        destruct rb; exact Goal'.
      + apply nibble_lt in Hra as [Hc0 Hcs].
        destruct (pre_inv _ _ _ Hp Wu Bu) as [Wf Bf].
        assert (Wsub : wf (ext_opt cs c)) by (apply wf_ext_opt; auto).
        assert (Bsub : bnd (ext_opt cs c)).
        { intros q Hq. rewrite tget_ext_opt. destruct (starts_with q cs) eqn:E; [|congruence]. intros Hg.
          apply starts_with_spec in E as [r ->]. rewrite skipn_app_exact in *.
          destruct (B ((pfx ++ c0 :: cs) ++ r)) as [B1 B2].
          - apply is_nibbles_app in Hq as [_ Hr]. apply is_nibbles_app; auto.
          - rewrite tget_ext, starts_with_app, skipn_app_exact. auto.
          - rewrite tget_ext, starts_with_app, skipn_app_exact in B2. rewrite !lenN_app in *. unfold lenN in *.
            cbn [length] in B1. split; [lia|auto]. }
        apply wp_bind; [grow|intros; destruct rb; [apply grows_finish|grow_with ltac:(apply grows_finish)]|].
        assert (Sub : wp (if (length (c0 :: cs) =? 1) && true then ret (ref (item_of c))
            else bindM (lift (pack_nibbles (adapt_terminator cs (negb true)))) (fun pk => encode_node H (Lst [Str pk; ref (item_of c)]) false)) d
            (fun e d' => e = ref (item_of (ext_opt cs c)) /\ loads d' (item_of (ext_opt cs c)) /\ stored d' (ext_opt cs c))).
        { destruct cs as [|x cs]; cbn [length Nat.eqb andb].
          - apply wp_ret. auto.
          - cbn [negb adapt_terminator]. rewrite without_nibbles by auto.
            destruct (pack_ok (x :: cs) false Hcs) as (P & _ & _); [discriminate|].
            apply (wp_lift_bind _ _ _ _ _ P).
            change (Lst [Str (pk (key_of (x :: cs) false)); ref (item_of c)]) with (item_of (ext_opt (x :: cs) c)).
            assert (G := grows_encode (item_of (ext_opt (x :: cs) c)) false d).
            intros Nc. pose proof (wp_encode (ext_opt (x :: cs) c) false d Wsub Bsub Nc) as We.
            destruct (snd _); [|exact We]. cbn beta iota in We. destruct We as [-> Le]. split; auto. split; auto.
            cbn [ext_opt]. constructor; [eapply loads_incl; [apply (ext_incl _ _ G)|auto]|eapply stored_incl; [apply (ext_incl _ _ G)|auto]]. }
        eapply wp_conseq; [exact Sub|]. cbn beta. intros e d1 (-> & Ld & Sd) E1.
        destruct rb as [|r0 rs].
        * apply (wp_fork pfx c0 cs (ext_opt cs c) [] v d1); auto.
        * apply (wp_fork pfx c0 cs (ext_opt cs c) (r0 :: rs) v d1); auto.
    - (* branch *)
      destruct key as [|k0 ks].
      + cbn [tupd] in *.
        apply wp_bind; [grow|intros; grow|]. apply wp_ret. intros _.
        rewrite branch_set_value by auto.
        apply wp_encode_bind; auto; [intros; grow|]. intros d1 E1 Ld. apply wp_ret. split; auto. split; auto.
        eapply stored_incl; [apply (ext_incl _ _ E1)|]. constructor; auto.
      + rewrite tupd_branch in *. apply nibble_lt in Hk as [Hk0 Hks]. cbn [length] in Hf.
        set (o := nth (N.to_nat k0) cs None) in *.
        assert (Hin : In o cs) by (apply nth_In; lia).
        assert (Lks : (lenN ks <= LIM)%N) by (unfold lenN in *; cbn [length] in Lk; lia).
        assert (Ho : owf o /\ obnd o /\ ostored d o /\ match o with Some t => loads d (item_of t) | None => True end).
        { destruct o as [c|]; cbn [owf obnd ostored]; auto. split; auto. split; [apply (bnd_child _ _ _ Wl B Hin)|auto]. }
        destruct Ho as (Wo & Bo & So & Lo).
        assert (Up : wp (update_f H fuel (oitem o) ks v) d (fun i d' => i = item_of (oupd o ks v) /\ kept d' (oupd o ks v))).
        { destruct o as [c|]; cbn [oitem oupd owf obnd ostored] in *.
          - apply IH; auto. lia.
          - destruct fuel as [|fuel']; [lia|]. cbn [update_f get_node_type BLANK_NODE].
            apply (wp_lift_bind NT_BLANK); [reflexivity|].
            rewrite with_nibbles by auto. destruct (pack_ok ks true Hks (key_true_ne ks)) as (P & _ & _).
            apply (wp_lift_bind _ _ _ _ _ P). cbv zeta.
            change (Lst [Str (pk (key_of ks true)); Str v]) with (item_of (TLeaf ks v)).
            apply wp_encode_bind; [constructor; auto|apply bnd_leaf; auto|intros; grow|].
            intros d1 E1 Ld. apply wp_ret. split; auto. split; auto. constructor. }
        pose proof (wf_oupd o ks v Wo Hks Hv) as Wou.
        assert (Hin' : In (Some (oupd o ks v)) (set_nth (N.to_nat k0) (Some (oupd o ks v)) cs)).
        { replace (Some (oupd o ks v)) with (nth (N.to_nat k0) (set_nth (N.to_nat k0) (Some (oupd o ks v)) cs) None) at 1.
          - apply nth_In. rewrite set_nth_length. lia.
          - rewrite nth_set_nth by lia. rewrite Nat.eqb_refl. auto. }
        assert (Bou : bnd (oupd o ks v)).
        { inversion Wu as [| |? ? Wl' Wcs' We']; subst. apply (bnd_child _ _ _ Wl' Bu Hin'). }
        apply wp_bind; [grow_with ltac:(apply grows_update)|intros; grow|].
        apply (wp_lift_bind (oref o)); [apply branch_child; auto|].
        apply wp_oload_bind; auto; [intros; grow_with ltac:(apply grows_update)|].
        apply wp_bind; [apply grows_update|intros; grow|].
        eapply wp_conseq; [exact Up|]. cbn beta. intros i d1 [-> [Ki Ks]] E1.
        apply wp_encode_bind; auto; [intros; grow|]. intros d2 E2 L2. apply wp_ret. intros E12.
        change (ref (item_of (oupd o ks v))) with (oref (Some (oupd o ks v))). rewrite branch_set_child by auto.
        apply wp_encode_bind; auto; [intros; grow|]. intros d3 E3 L3. apply wp_ret. split; auto. split; auto.
        pose proof (ext_incl _ _ E3) as I3. pose proof (ext_incl _ _ E2) as I2. pose proof (ext_incl _ _ E1) as I1.
        apply stored_set with (v := val).
        * eapply loads_incl; eauto.
        * eapply stored_incl; [|exact Ks]. intros x Hx. auto.
        * eapply stored_incl; [|exact St]. intros x Hx. auto.
  Qed.

  (** ** Deletion *)
  Lemma obnd_del t key : wf t -> bnd t -> is_nibbles key -> obnd (tdel t key).
  Proof.
    intros W B Hk. destruct (tdel_spec t W key Hk) as (_ & _ & G). destruct (tdel t key) as [t'|]; cbn [obnd]; auto.
    intros q Hq. cbn [oget] in G. rewrite G by auto. destruct (bytes_eqb q key); [congruence|auto].
  Qed.

  Lemma truthy_ref t : truthy (ref (item_of t)) = true.
  Proof.
    unfold ref. destruct (length (rlp (item_of t)) <? 32).
    - destruct t; try reflexivity. rewrite item_branch. destruct (map oref cs); reflexivity.
    - destruct (H_cons (rlp (item_of t))) as (? & ? & ->). reflexivity.
  Qed.
  Lemma truthy_oref o : truthy (oref o) = is_some o.
  Proof. destruct o; [apply truthy_ref|reflexivity]. Qed.
  Lemma truthy_count cs v : length (filter truthy (map oref cs ++ [Str v])) = entries cs v.
  Proof.
    rewrite filter_app, app_length. unfold entries, cnt. f_equal.
    - induction cs as [|o cs IH]; auto. cbn [map filter]. rewrite truthy_oref. destruct (is_some o); cbn [length]; auto.
    - destruct v; reflexivity.
  Qed.
  Lemma truthy_first_child cs v : first_some cs < length cs -> first_truthy (map oref cs ++ [Str v]) = first_some cs.
  Proof.
    induction cs as [|o cs IH]; cbn [length]; [lia|]. cbn [map app first_truthy]. rewrite truthy_oref.
    destruct o; cbn [is_some first_some]; auto. intros L. rewrite IH by lia. reflexivity.
  Qed.
  Lemma truthy_first_value cs v : cnt is_some cs = 0 -> nonempty v = true -> first_truthy (map oref cs ++ [Str v]) = length cs.
  Proof.
    intros C Hv. induction cs as [|o cs IH]; cbn [map app first_truthy length].
    - destruct v; [discriminate|reflexivity].
    - rewrite cnt_cons in C. rewrite truthy_oref. destruct (is_some o); cbn [Nat.b2n] in C; [lia|]. rewrite IH by lia. reflexivity.
  Qed.

  (** Putting nibbles in front of a node *)
  Lemma prefix_item_leaf p k v : Lst [Str (pk (p ++ key_of k true)); Str v] = item_of (prefix_key p (TLeaf k v)).
  Proof. cbn [prefix_key item_of]. unfold key_of. rewrite app_assoc. reflexivity. Qed.
  Lemma prefix_item_ext p k c : Lst [Str (pk (p ++ key_of k false)); ref (item_of c)] = item_of (prefix_key p (TExt k c)).
  Proof. reflexivity. Qed.
  Lemma stored_prefix d p t : kept d t -> stored d (prefix_key p t).
  Proof. intros [L S1]. destruct t; cbn [prefix_key]; inversion S1; subst; constructor; auto. Qed.

  Lemma pack_prefix p k term : is_nibbles p -> p <> [] -> is_nibbles k ->
    pack_nibbles (p ++ key_of k term) = Ok (pk (p ++ key_of k term)).
  Proof.
    intros Hp Hn Hk. replace (p ++ key_of k term) with (key_of (p ++ k) term)
      by (destruct term; unfold key_of; [rewrite app_assoc|]; reflexivity).
    apply pack_ok; [apply is_nibbles_app; auto|]. destruct p; [congruence|destruct term; discriminate].
  Qed.

  (** Joining a node with its only child, as done twice in the deletion code *)
  Lemma wp_collapse p sub d (fB : M item) (Q : item -> kv -> Prop) : is_nibbles p -> p <> [] -> wf sub -> wf (prefix_key p sub) -> bnd (prefix_key p sub) ->
    kept d sub ->
    (forall d', kept d' (prefix_key p sub) -> ext d d' -> Q (item_of (prefix_key p sub)) d') ->
    (is_branch sub -> wp fB d Q) -> grows fB ->
    wp (bindM (lift (get_node_type (item_of sub))) (fun nt =>
      match nt with
      | NT_LEAF | NT_EXTENSION =>
        bindM (lift (get_item (items_of (item_of sub)) 0)) (fun k =>
        bindM (lift (unpack_item k)) (fun nk =>
        bindM (lift (get_item (items_of (item_of sub)) 1)) (fun v =>
        bindM (lift (pack_nibbles (p ++ nk))) (fun pk =>
        let o := Lst [Str pk; v] in bindM (encode_node H o false) (fun _ => ret o)))))
      | NT_BRANCH => fB
      | _ => fail AssertionError
      end)) d Q.
  Proof.
    intros Hp Hn W Wp Bp K HQ HB GB. apply (wp_lift_bind _ _ _ _ _ (node_type_of sub W)).
    pose proof (stored_prefix d p sub K) as Sp.
    inversion W as [k v Wk Wv|k c Wk Wn Wb Wc|cs v Wl Wcs We]; subst; cbn [ntype].
    - destruct (pack_ok k true Wk (key_true_ne k)) as (_ & U & _).
      apply (wp_lift_bind (Str (pk (key_of k true)))); [reflexivity|].
      apply (wp_lift_bind (key_of k true)); [exact U|].
      apply (wp_lift_bind (Str v)); [reflexivity|].
      apply (wp_lift_bind _ _ _ _ _ (pack_prefix p k true Hp Hn Wk)). cbv zeta.
      rewrite prefix_item_leaf. apply wp_encode_bind; auto; [intros; grow|]. intros d1 E1 L1. apply wp_ret.
      apply HQ; auto. split; auto. eapply stored_incl; [apply (ext_incl _ _ E1)|auto].
    - destruct (pack_ok k false Wk Wn) as (_ & U & _).
      apply (wp_lift_bind (Str (pk (key_of k false)))); [reflexivity|].
      apply (wp_lift_bind (key_of k false)); [exact U|].
      apply (wp_lift_bind (ref (item_of c))); [reflexivity|].
      apply (wp_lift_bind _ _ _ _ _ (pack_prefix p k false Hp Hn Wk)). cbv zeta.
      rewrite prefix_item_ext. apply wp_encode_bind; auto; [intros; grow|]. intros d1 E1 L1. apply wp_ret.
      apply HQ; auto. split; auto. eapply stored_incl; [apply (ext_incl _ _ E1)|auto].
    - apply HB. exact I.
  Qed.

  Lemma wp_normalize cs v d : length cs = 16 -> (forall c, In (Some c) cs -> wf c) -> 1 <= entries cs v ->
    bnd (TBranch cs v) -> stored d (TBranch cs v) ->
    wp (normalize_branch_node H (item_of (TBranch cs v))) d (fun i d' => i = oitem (tnorm cs v) /\ okept d' (tnorm cs v)).
  Proof.
    intros L Hc He B St. destruct (tnorm_spec cs v L Hc He) as (t & Et & Wt & Gt).
    assert (Bt : bnd t) by (intros q Hq; rewrite Gt by auto; auto).
    unfold normalize_branch_node. cbv zeta. rewrite item_branch. cbn [items_of]. rewrite truthy_count. unfold tnorm in *.
    destruct (Nat.eqb_spec (entries cs v) 0); [lia|].
    destruct (Nat.ltb_spec 1 (entries cs v)) as [H1|H1].
    - injection Et as <-. rewrite <- item_branch. cbn [oitem okept].
      apply wp_encode_bind; auto; [intros; grow|]. intros d1 E1 L1. apply wp_ret. split; auto. split; auto.
      eapply stored_incl; [apply (ext_incl _ _ E1)|auto].
    - unfold entries in *. destruct (nonempty v) eqn:Ev; cbn [Nat.b2n] in *.
      + injection Et as <-. rewrite truthy_first_value, L by (auto; lia). cbn [Nat.eqb].
        apply (wp_lift_bind (pk (key_of [] true))); [reflexivity|].
        apply (wp_lift_bind (Str v)).
        { apply get_item_nth. rewrite nth_error_app2; rewrite map_length, L; [reflexivity|lia]. }
        cbn [oitem okept].
        change (Lst [Str (pk (key_of [] true)); Str v]) with (item_of (TLeaf [] v)).
        apply wp_encode_bind; auto; [intros; grow|]. intros d1 E1 L1. apply wp_ret. split; auto. split; auto. constructor.
      + destruct (first_some_spec cs) as (c & E1 & E2 & E3); [lia|]. rewrite E1 in Et |- *. injection Et as <-.
        rewrite truthy_first_child by auto.
        destruct (Nat.eqb_spec (first_some cs) 16); [lia|].
        assert (Hin : In (Some c) cs) by (rewrite <- E1; apply nth_In; auto).
        inversion St as [| |? ? Lc Sc]; subst. pose proof (Hc c Hin) as Wc. pose proof (bnd_child cs v c L B Hin) as Bc.
        apply (wp_lift_bind (ref (item_of c))).
        { change (ref (item_of c)) with (oref (Some c)). rewrite <- E1.
          apply (branch_child cs v (first_some cs)); [auto|lia]. }
        apply wp_load_bind; auto; [intros; grow|]. cbn [oitem okept].
        assert (Hp : is_nibbles [N.of_nat (first_some cs)]) by (repeat constructor; lia).
        change (wp (bindM (lift (get_node_type (item_of c))) (fun nt =>
          match nt with
          | NT_LEAF | NT_EXTENSION =>
            bindM (lift (get_item (items_of (item_of c)) 0)) (fun k =>
            bindM (lift (unpack_item k)) (fun nk =>
            bindM (lift (get_item (items_of (item_of c)) 1)) (fun v =>
            bindM (lift (pack_nibbles ([N.of_nat (first_some cs)] ++ nk))) (fun pk =>
            let o := Lst [Str pk; v] in bindM (encode_node H o false) (fun _ => ret o)))))
          | NT_BRANCH =>
            bindM (lift (pack_nibbles [N.of_nat (first_some cs)])) (fun pk =>
            let o := Lst [Str pk; ref (item_of c)] in bindM (encode_node H o false) (fun _ => ret o))
          | _ => fail AssertionError
          end)) d (fun i d' => i = item_of (prefix_key [N.of_nat (first_some cs)] c) /\ kept d' (prefix_key [N.of_nat (first_some cs)] c))).
        apply wp_collapse; auto; [discriminate|split; auto| |grow].
        intros Hb. destruct c as [| |ccs cv]; try destruct Hb.
        destruct (pack_ok [N.of_nat (first_some cs)] false Hp) as (P & _ & _); [discriminate|].
        apply (wp_lift_bind _ _ _ _ _ P). cbv zeta.
        set (c := TBranch ccs cv) in *.
        change (Lst [Str (pk (key_of [N.of_nat (first_some cs)] false)); ref (item_of c)]) with (item_of (TExt [N.of_nat (first_some cs)] c)).
        change (prefix_key [N.of_nat (first_some cs)] c) with (TExt [N.of_nat (first_some cs)] c) in *.
        apply wp_encode_bind; auto; [intros; grow|]. intros d1 Ed1 L1. apply wp_ret. split; auto. split; auto.
        pose proof (ext_incl _ _ Ed1) as I1.
        constructor; [eapply loads_incl; eauto|eapply stored_incl; eauto].
  Qed.

  Theorem delete_refines fuel : forall t key d, wf t -> bnd t -> stored d t -> is_nibbles key -> length key < fuel ->
    wp (delete_f H fuel (item_of t) key) d (fun i d' => i = oitem (tdel t key) /\ okept d' (tdel t key)).
  Proof.
    induction fuel as [|fuel IH]; intros t key d W B St Hk Hf; [lia|].
    destruct (tdel_spec t W key Hk) as (Wd & Nn & Gd). pose proof (obnd_del t key W B Hk) as Bd.
    assert (Same : wp (bindM (encode_node H (item_of t) false) (fun _ => ret (item_of t))) d
                     (fun i d' => i = oitem (Some t) /\ okept d' (Some t))).
    { apply wp_encode_bind; auto; [intros; grow|]. intros d1 E1 L1. apply wp_ret. split; auto. split; auto.
      eapply stored_incl; [apply (ext_incl _ _ E1)|auto]. }
    cbn [delete_f]. apply (wp_lift_bind _ _ _ _ _ (node_type_of t W)).
    inversion W as [k val Wk Wv|k c Wk Wn Wb Wc|cs val Wl Wcs We]; subst; cbn [ntype];
      inversion St as [|? ? L1 S1|? ? L1 S1]; subst.
    - unfold delete_kv_node. cbn [item_of] in Same |- *.
      apply (wp_lift_bind k); [apply key_nibbles_of; auto using key_true_ne|]. cbn [tdel] in *.
      destruct (starts_with key k) eqn:Es; cbn [negb].
      + destruct (bytes_eqb key k); [apply wp_ret; split; [reflexivity|exact I]|exact Same].
      + destruct (bytes_eqb key k) eqn:E; [|exact Same]. apply bytes_eqb_eq in E as ->.
        rewrite <- (app_nil_r k) in Es at 1. rewrite starts_with_app in Es. discriminate.
    - unfold delete_kv_node. cbn [item_of] in Same |- *.
      apply (wp_lift_bind k); [apply key_nibbles_of; auto|]. cbn [tdel] in *.
      destruct (starts_with key k) eqn:Es; cbn [negb]; [|exact Same].
      apply starts_with_spec in Es as [r ->]. rewrite skipn_app_exact in *.
      apply is_nibbles_app in Hk as [_ Hr]. pose proof (bnd_ext k c Wk B) as Bc.
      destruct (tdel_spec c Wc r Hr) as (Wd' & Nn' & Gd').
      apply (wp_lift_bind (ref (item_of c))); [reflexivity|].
      apply wp_load_bind; auto; [intros; grow_with ltac:(apply grows_delete)|].
      apply wp_bind; [apply grows_delete|intros; grow|].
      assert (Hf' : length r < fuel). { rewrite app_length in Hf. destruct k; [congruence|]. cbn [length] in Hf. lia. }
      eapply wp_conseq; [apply IH; auto|]. cbn beta. intros i d1 [-> K1] E1.
      pose proof (obnd_del c r Wc Bc Hr) as Bd'.
      destruct (tdel c r) as [c'|] eqn:Ed; [|destruct (Nn' Wb eq_refl)]. cbn [oitem okept owf obnd] in *.
      rewrite item_not_blank.
      apply wp_collapse; auto; [|grow].
      intros Hb. destruct c' as [| |ccs cv]; try destruct Hb. destruct K1 as [K1 K2].
      destruct (pack_ok k false Wk Wn) as (P & _ & _).
      apply (wp_lift_bind _ _ _ _ _ P). set (c' := TBranch ccs cv) in *.
      apply wp_encode_bind; auto; [intros; grow|]. intros d2 E2 L2. cbv zeta.
      change (Lst [Str (pk (key_of k false)); ref (item_of c')]) with (item_of (TExt k c')).
      change (prefix_key k c') with (TExt k c') in *.
      apply wp_encode_bind; auto; [intros; grow|]. intros d3 E3 L3. apply wp_ret. split; auto. split; auto.
      pose proof (ext_incl _ _ E2) as I2. pose proof (ext_incl _ _ E3) as I3.
      constructor; [eapply loads_incl; eauto|]. eapply stored_incl; [|exact K2]. intros x Hx. auto.
    - unfold delete_branch_node. destruct key as [|k0 ks].
      + cbn [tdel] in *. rewrite (branch_set_value cs val [] Wl : Lst (set_nth 16 BLANK_NODE _) = _).
        apply wp_normalize; auto.
        * unfold entries in *. destruct (nonempty val); cbn [Nat.b2n nonempty] in *; lia.
        * intros q Hq. destruct q as [|q0 qs]; [rewrite tget_branch_nil; congruence|].
          rewrite tget_branch. intros G. specialize (B (q0 :: qs) Hq). rewrite tget_branch in B. auto.
        * constructor; auto.
      + rewrite tdel_branch in *. cbv zeta in *. apply nibble_lt in Hk as [Hk0 Hks]. cbn [length] in Hf.
        set (o := nth (N.to_nat k0) cs None) in *.
        assert (Hin : In o cs) by (apply nth_In; lia).
        assert (Ho : owf o /\ obnd o /\ ostored d o /\ match o with Some t => loads d (item_of t) | None => True end).
        { destruct o as [c|]; cbn [owf obnd ostored]; auto. split; auto. split; [apply (bnd_child _ _ _ Wl B Hin)|auto]. }
        destruct Ho as (Wo & Bo & So & Lo).
        assert (Dl : wp (delete_f H fuel (oitem o) ks) d (fun i d' => i = oitem (odel o ks) /\ okept d' (odel o ks))).
        { destruct o as [c|]; cbn [oitem odel owf obnd ostored] in *.
          - apply IH; auto. lia.
          - destruct fuel as [|fuel']; [lia|]. apply (wp_lift_bind NT_BLANK); [reflexivity|]. apply wp_ret. split; [reflexivity|exact I]. }
        assert (Wod : owf (odel o ks)).
        { destruct o as [c|]; cbn [odel]; [|exact I]. apply tdel_spec; auto. }
        assert (Bod : obnd (odel o ks)).
        { destruct o as [c|]; cbn [odel]; [|exact I]. apply obnd_del; auto. }
        apply (wp_lift_bind (oref o)); [apply branch_child; auto|].
        apply wp_oload_bind; auto; [intros; grow_with ltac:(first [apply grows_delete|apply grows_normalize])|].
        apply wp_bind; [apply grows_delete|intros; grow_with ltac:(apply grows_normalize)|].
        eapply wp_conseq; [exact Dl|]. cbn beta. intros i d1 [-> K1] E1. pose proof (ext_incl _ _ E1) as I1.
        pose proof (cnt_set_nth is_some (N.to_nat k0) (odel o ks) None cs) as C. fold o in C.
        destruct (odel o ks) as [c'|] eqn:Ed; cbn [oitem okept owf obnd] in *.
        * destruct K1 as [K1 K2].
          apply wp_encode_bind; auto; [intros; grow_with ltac:(apply grows_normalize)|]. intros d2 E2 L2. cbv zeta.
          pose proof (ext_incl _ _ E2) as I2.
          assert (Hnb : item_eqb (ref (item_of c')) BLANK_NODE = false).
          { unfold item_eqb. destruct (item_eq_dec _ _) as [E|]; auto. pose proof (truthy_ref c') as T. rewrite E in T. discriminate. }
          rewrite Hnb. change (ref (item_of c')) with (oref (Some c')). rewrite branch_set_child by auto.
          apply wp_encode_bind; auto; [intros; grow|]. intros d3 E3 L3. apply wp_ret. split; auto. split; auto.
          pose proof (ext_incl _ _ E3) as I3.
          apply stored_set with (v := val).
          -- eapply loads_incl; eauto.
          -- eapply stored_incl; [|exact K2]. intros x Hx. auto.
          -- eapply stored_incl; [|exact St]. intros x Hx. auto.
        * apply wp_bind; [apply grows_encode|intros; grow_with ltac:(apply grows_normalize)|].
          assert (Enc : wp (encode_node H BLANK_NODE false) d1 (fun e d' => e = BLANK_NODE /\ d' = d1)).
          { intros _. split; reflexivity. }
          eapply wp_conseq; [exact Enc|]. cbn beta. intros e d2 [-> ->] _. cbv zeta.
          change (item_eqb BLANK_NODE BLANK_NODE) with true. cbv iota.
          change BLANK_NODE with (oref None) at 1. rewrite branch_set_child by auto.
          assert (Hc' : forall x, In (Some x) (set_nth (N.to_nat k0) None cs) -> In (Some x) cs).
          { intros x Hx. apply set_nth_In in Hx as [E|Hx]; [discriminate|auto]. }
          apply wp_normalize.
          -- rewrite set_nth_length. auto.
          -- intros x Hx. apply Wcs; auto.
          -- unfold entries in *. cbn [is_some Nat.b2n] in C. specialize (C ltac:(lia)).
             destruct (is_some o); cbn [Nat.b2n] in C; lia.
          -- intros q Hq. destruct q as [|q0 qs].
             ++ rewrite tget_branch_nil. intros G. apply (B []); auto. 
             ++ apply nibble_lt in Hq as Hq'. destruct Hq' as [Hq0 Hqs]. rewrite tget_branch, nth_set_nth by lia.
                destruct (N.to_nat q0 =? N.to_nat k0); [cbn [oget]; congruence|]. intros G.
                specialize (B (q0 :: qs) Hq). rewrite tget_branch in B. auto.
          -- constructor; intros x Hx; apply Hc' in Hx; [eapply loads_incl; eauto|eapply stored_incl; eauto].
  Qed.
End Refine.
