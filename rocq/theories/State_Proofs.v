(** The state object keeps its map, its committed map and the maps of earlier roots. *)
From Coq Require Import List Arith NArith Bool Lia.
From Verif Require Import Base Rlp_Model Rlp_Props Trie_Model Trie_Spec Trie_Abs Trie_Proofs.
Import ListNotations.

Lemma ops_ok_app limit n a b : ops_ok limit n (a ++ b) <-> ops_ok limit n a /\ ops_ok limit (n + length a) b.
Proof.
  revert n. induction a as [|o a IH]; intros n; cbn [app ops_ok length].
  - rewrite Nat.add_0_r. tauto.
  - rewrite IH. replace (n + S (length a)) with (S n + length a) by lia. tauto.
Qed.

Lemma Forall2_len {A B} (P : A -> B -> Prop) l l' : Forall2 P l l' -> length l = length l'.
Proof. intros F. induction F; cbn [length]; congruence. Qed.

Definition enc (v : option bytes) : bytes := match v with Some b => rlp (Lst [Str b]) | None => [] end.

Lemma enc_ne (v : bytes) : enc (Some v) <> [].
Proof. apply rlp_nonempty. Qed.
Lemma enc_len (v : bytes) : (lenN (enc (Some v)) <= lenN v + 18)%N.
Proof.
  cbn [enc]. eapply N.le_trans; [apply (rlp_lst_len _ (lenN v + 9))|]; [|unfold lenN; cbn [length]; lia].
  intros i [<-|[]]. apply rlp_str_len.
Qed.
Lemma enc_encode (v : bytes) : (lenN v < 2 ^ 58)%N -> rlp_encode (Lst [Str v]) = Ok (enc (Some v)).
Proof.
  intros L. apply C15_encodes. pose proof (enc_len v) as E. cbn [enc] in E.
  change (2 ^ 58)%N with 288230376151711744%N in L. change (256 ^ 8)%N with 18446744073709551616%N. lia.
Qed.

Section State.
  Variable H : bytes -> bytes.
  Hypothesis Hlen : forall x, length (H x) = 32.
  Variable limit : nat.
  Notation no_collision := (collision_free H).

  (** ** Optional tries *)
  Lemma oupdate_refines fuel o key v d : owf o -> obnd o -> ostored H d o -> is_nibbles key -> length key < fuel ->
    v <> [] -> (lenN key <= LIM)%N -> (lenN v <= LIM)%N ->
    wp H (update_f H fuel (oitem H o) key v) d
      (fun i d' => i = item_of H (oupd o key v) /\ kept H d' (oupd o key v)).
  Proof.
    destruct o as [t|]; cbn [owf obnd ostored oitem oupd]; intros W B St Hk Hf Hv Lk Lv; [apply update_refines; auto|].
    destruct fuel as [|fuel']; [lia|]. cbn [update_f get_node_type BLANK_NODE].
    apply (wp_lift_bind H NT_BLANK); [reflexivity|].
    rewrite with_nibbles by auto. destruct (pack_ok key true Hk (key_true_ne key)) as (P & _ & _).
    apply (wp_lift_bind H _ _ _ _ _ P). cbv zeta.
    change (Lst [Str (pk (key_of key true)); Str v]) with (item_of H (TLeaf key v)).
    apply wp_encode_bind; auto; [constructor; auto|apply bnd_leaf; auto|intros; apply grows_ret|].
    intros d1 E1 Ld. apply wp_ret. split; auto. split; auto. constructor.
  Qed.
  Lemma odelete_refines fuel o key d : owf o -> obnd o -> ostored H d o -> is_nibbles key -> length key < fuel ->
    wp H (delete_f H fuel (oitem H o) key) d (fun i d' => i = oitem H (odel o key) /\ okept H d' (odel o key)).
  Proof.
    destruct o as [t|]; cbn [owf obnd ostored oitem odel]; intros W B St Hk Hf; [apply delete_refines; auto|].
    destruct fuel as [|fuel']; [lia|]. apply (wp_lift_bind H NT_BLANK); [reflexivity|]. apply wp_ret. split; [reflexivity|exact I].
  Qed.
  Definition orpath (o : option tnode) (key : nibbles) : list item := match o with Some t => tpath H t key | None => [] end.
  Lemma oget_refines ok o fuel d key : owf o -> obnd o -> ostored H d o -> is_nibbles key -> length key < fuel ->
    no_collision d -> (forall i, In i (orpath o key) -> ok i = true) ->
    get_f ok fuel d (oitem H o) key = Ok (Some (Str (oget o key)), orpath o key).
  Proof.
    destruct o as [t|]; cbn [owf obnd ostored oitem orpath oget]; intros W B St Hk Hf N Hok; [apply get_refines; auto|].
    destruct fuel as [|fuel']; [lia|]. reflexivity.
  Qed.

  (** ** Roots in a store *)
  Definition good (d : kv) (h : bytes) (o : option tnode) : Prop :=
    match o with
    | None => h = BLANK_ROOT H
    | Some t => h = H (rlp (item_of H t)) /\ In (h, rlp (item_of H t)) d /\ stored H d t
    end.
  Lemma good_incl d d' h o : incl d d' -> good d h o -> good d' h o.
  Proof. intros I. destruct o as [t|]; cbn [good]; auto. intros (E & Hi & St). split; auto. split; auto. eapply stored_incl; eauto. Qed.
  Lemma good_stored d h o : good d h o -> ostored H d o.
  Proof. destruct o; cbn; tauto. Qed.
  Lemma good_kept d h o : good d h o -> okept H d o.
  Proof. destruct o as [t|]; cbn; auto. intros (-> & Hi & St). split; auto. intros _. auto. Qed.

  Definition root_hash_of (o : option tnode) : bytes :=
    match o with Some t => H (rlp (item_of H t)) | None => BLANK_ROOT H end.
  Lemma good_hash d h o : good d h o -> h = root_hash_of o.
  Proof. destruct o; cbn; tauto. Qed.

  Lemma blank_node_rlp : rlp BLANK_NODE = [128%N].
  Proof. reflexivity. Qed.
  Lemma not_blank_root d t : wf t -> bnd t -> no_collision d -> In (H (rlp (item_of H t)), rlp (item_of H t)) d ->
    H (rlp (item_of H t)) <> BLANK_ROOT H.
  Proof.
    intros W B N Hin E. assert (R : rlp (item_of H t) = [128%N]).
    { apply (N (H (rlp (item_of H t)))); [right; auto|left; rewrite E; reflexivity|apply H_not_root; auto]. }
    pose proof (node_decode H Hlen t W B) as D. rewrite R in D. destruct t; discriminate.
  Qed.
  Lemma good_node d h o : owf o -> obnd o -> no_collision d -> good d h o ->
    (if bytes_eqb h (BLANK_ROOT H) then Ok BLANK_NODE
     else bind (decode_to_node any_node d (Str h)) (fun '(n, _) => Ok n)) = Ok (oitem H o).
  Proof.
    destruct o as [t|]; cbn [owf obnd good oitem]; intros W B N G.
    - destruct G as (-> & Hin & St). rewrite bytes_eqb_neq by (eapply not_blank_root; eauto).
      rewrite decode_hash by (destruct (H_cons H Hlen (rlp (item_of H t))) as (? & ? & ->); discriminate).
      rewrite kv_get_hash by auto. cbn [bind]. rewrite node_decode by auto. reflexivity.
    - subst h. rewrite bytes_eqb_refl. reflexivity.
  Qed.
  Lemma hash_node t h o : owf o -> obnd o -> no_collision (t_kv t) -> good (t_kv t) h o ->
    hash_to_node H t h = Ok (oitem H o).
  Proof. apply good_node. Qed.
  Lemma root_hash_len o : length (root_hash_of o) = 32.
  Proof. destruct o; apply Hlen. Qed.
  Lemma open_root d h o : owf o -> obnd o -> no_collision d -> good d h o ->
    root_node_of H any_node d h = Ok (oitem H o).
  Proof.
    intros W B N G. unfold root_node_of. rewrite (good_hash _ _ _ G), root_hash_len. cbn [Nat.eqb orb negb].
    rewrite <- (good_hash _ _ _ G). apply good_node; auto.
  Qed.

  Lemma root_hash_ok t o : owf o -> obnd o -> t_root t = oitem H o -> get_root_hash H t = Ok (root_hash_of o).
  Proof.
    intros W B E. unfold get_root_hash. rewrite E. destruct o as [x|]; cbn [oitem root_hash_of]; [|reflexivity].
    rewrite item_not_blank, node_encode by auto. reflexivity.
  Qed.

  (** ** Changing the root *)
  Lemma grows_change m : grows H m -> grows H (bindM m (fun n => bindM (encode_node H n true) (fun _ => ret n))).
  Proof.
    intros G. apply grows_bind; auto. intros. apply grows_bind; [apply grows_encode|]. intros; apply grows_ret.
  Qed.
  Lemma change_ext t m : grows H m -> ext H (t_kv t) (t_kv (fst (change_root H t m))).
  Proof.
    intros G. unfold change_root. pose proof (grows_change m G (t_kv t)) as E.
    destruct (bindM m _ (t_kv t)) as [d [n|e]]; exact E.
  Qed.
  Lemma change_ok t m o' : grows H m -> owf o' -> obnd o' ->
    no_collision (t_kv (fst (change_root H t m))) ->
    wp H m (t_kv t) (fun i d' => i = oitem H o' /\ okept H d' o') ->
    snd (change_root H t m) = Ok tt /\ t_root (fst (change_root H t m)) = oitem H o' /\
    good (t_kv (fst (change_root H t m))) (root_hash_of o') o'.
  Proof.
    intros G W B N Wm.
    assert (Wc : wp H (bindM m (fun n => bindM (encode_node H n true) (fun _ => ret n))) (t_kv t)
                   (fun i d' => i = oitem H o' /\ good d' (root_hash_of o') o')).
    { apply wp_bind; auto; [intros; apply grows_bind; [apply grows_encode|intros; apply grows_ret]|].
      eapply wp_conseq; [exact Wm|]. cbn beta. intros i d1 [-> K] E1.
      destruct o' as [t'|]; cbn [oitem owf obnd okept good root_hash_of] in *.
      - apply wp_bind; [apply grows_encode|intros; apply grows_ret|].
        eapply wp_conseq; [apply wp_encode; auto|]. cbn beta iota. intros e d2 [-> Hin] E2. apply wp_ret.
        split; auto. split; auto. split; auto. eapply stored_incl; [apply (ext_incl _ _ _ E2)|]. apply K.
      - intros _. split; reflexivity. }
    unfold change_root in *. unfold wp in Wc.
    destruct (bindM m _ (t_kv t)) as [d [n|e]]; cbn [fst snd t_kv t_root] in *.
    - destruct (Wc N) as [-> Gd]. auto.
    - destruct (Wc N).
  Qed.

  (** ** Representation of a map *)
  Definition rep (o : option tnode) (m : smap) : Prop :=
    owf o /\ obnd o /\
    (forall k, is_bytes k -> oget o (bin_to_nibbles k) = enc (m k)) /\
    (forall nk, is_nibbles nk -> oget o nk <> [] -> exists k, is_bytes k /\ nk = bin_to_nibbles k) /\
    (forall k v, m k = Some v -> is_bytes k /\ (lenN v < 2 ^ 58)%N).

  Lemma rep_empty : rep None smap_empty.
  Proof. split; [exact I|]. split; [exact I|]. split; [reflexivity|]. split; [intros nk _ E; destruct (E eq_refl)|discriminate]. Qed.

  Lemma lenN_bin k : (lenN k < 2 ^ 58)%N -> (lenN (bin_to_nibbles k) <= LIM)%N.
  Proof.
    unfold lenN, LIM. rewrite bin_to_nibbles_length. change (2 ^ 58)%N with 288230376151711744%N.
    change (2 ^ 59)%N with 576460752303423488%N. lia.
  Qed.
  Lemma lenN_enc (v : bytes) : (lenN v < 2 ^ 58)%N -> (lenN (enc (Some v)) <= LIM)%N.
  Proof.
    intros L. pose proof (enc_len v) as E. unfold LIM. eapply N.le_trans; [exact E|].
    change (2 ^ 58)%N with 288230376151711744%N in L. change (2 ^ 59)%N with 576460752303423488%N. clear E. lia.
  Qed.
  Lemma nib_eqb k' k : bytes_eqb (bin_to_nibbles k') (bin_to_nibbles k) = bytes_eqb k' k.
  Proof.
    destruct (bytes_eqb k' k) eqn:E.
    - apply bytes_eqb_eq in E as ->. apply bytes_eqb_refl.
    - apply bytes_eqb_neq. intros E2. apply C16_bin_injective in E2 as ->. rewrite bytes_eqb_refl in E. discriminate.
  Qed.

  Lemma rep_set o m (k v : bytes) : rep o m -> is_bytes k -> (lenN k < 2 ^ 58)%N -> (lenN v < 2 ^ 58)%N ->
    rep (Some (oupd o (bin_to_nibbles k) (enc (Some v)))) (smap_set m k (Some v)).
  Proof.
    intros (W & B & G & K & V) Hk Lk Lv. pose proof (bin_to_nibbles_nibbles k Hk) as Hn.
    assert (Gu : forall q, is_nibbles q -> tget (oupd o (bin_to_nibbles k) (enc (Some v))) q
                   = if bytes_eqb q (bin_to_nibbles k) then enc (Some v) else oget o q).
    { intros q Hq. apply oget_oupd; auto. }
    split; [apply wf_oupd; auto; apply enc_ne|]. split.
    { intros q Hq. rewrite Gu by auto. destruct (bytes_eqb q (bin_to_nibbles k)) eqn:E.
      - apply bytes_eqb_eq in E as ->. intros _. split; [apply lenN_bin; auto|apply lenN_enc; auto].
      - destruct o as [t|]; cbn [oget obnd] in *; [auto|congruence]. }
    split.
    { intros k' Hk'. cbn [oget]. rewrite Gu by (apply bin_to_nibbles_nibbles; auto). rewrite nib_eqb. unfold smap_set.
      destruct (bytes_eqb k' k); auto. }
    split.
    { intros nk Hnk. cbn [oget]. rewrite Gu by auto. destruct (bytes_eqb nk (bin_to_nibbles k)) eqn:E; [|auto].
      apply bytes_eqb_eq in E as ->. eauto. }
    intros k' v'. unfold smap_set. destruct (bytes_eqb k' k) eqn:E; [|apply V].
    apply bytes_eqb_eq in E as ->. intros E. injection E as <-. auto.
  Qed.

  Lemma odel_spec o key : owf o -> is_nibbles key -> owf (odel o key) /\
    forall key', is_nibbles key' -> oget (odel o key) key' = if bytes_eqb key' key then [] else oget o key'.
  Proof.
    destruct o as [t|]; cbn [owf odel oget]; intros W Hk.
    - destruct (tdel_spec t W key Hk) as (A & _ & B). auto.
    - split; auto. intros key' _. destruct (bytes_eqb key' key); reflexivity.
  Qed.
  Lemma rep_remove o m k : rep o m -> is_bytes k -> rep (odel o (bin_to_nibbles k)) (smap_set m k None).
  Proof.
    intros (W & B & G & K & V) Hk. pose proof (bin_to_nibbles_nibbles k Hk) as Hn.
    destruct (odel_spec o (bin_to_nibbles k) W Hn) as [Wd Gd].
    split; auto. split.
    { destruct (odel o (bin_to_nibbles k)) as [t'|]; cbn [obnd oget] in *; auto.
      intros q Hq. rewrite Gd by auto. destruct (bytes_eqb q (bin_to_nibbles k)); [congruence|].
      destruct o as [t|]; cbn [oget obnd] in *; [auto|congruence]. }
    split.
    { intros k' Hk'. rewrite Gd by (apply bin_to_nibbles_nibbles; auto). rewrite nib_eqb. unfold smap_set.
      destruct (bytes_eqb k' k); auto. }
    split.
    { intros nk Hnk. rewrite Gd by auto. destruct (bytes_eqb nk (bin_to_nibbles k)); [congruence|auto]. }
    intros k' v'. unfold smap_set. destruct (bytes_eqb k' k); [discriminate|apply V].
  Qed.

  (** ** Reading *)
  Lemma read_ok o m d k ok : rep o m -> ostored H d o -> no_collision d -> is_bytes k -> 2 * length k < limit ->
    (forall i, In i (orpath o (bin_to_nibbles k)) -> ok i = true) ->
    get_f ok limit d (oitem H o) (bin_to_nibbles k) = Ok (Some (Str (enc (m k))), orpath o (bin_to_nibbles k)).
  Proof.
    intros (W & B & G & K & V) St N Hk Hl Hok. rewrite <- G by auto.
    apply oget_refines; auto; [apply bin_to_nibbles_nibbles; auto|rewrite bin_to_nibbles_length; auto].
  Qed.
  Lemma decode_some (x : bytes) : (lenN x < 2 ^ 58)%N -> decode_value (Some (Str (enc (Some x)))) = seen (Some x).
  Proof.
    intros L. pose proof (enc_encode x L) as E. pose proof (enc_ne x) as Hne. set (e := enc (Some x)) in *. clearbody e.
    unfold decode_value. assert (T : truthy (Str e) = true) by (destruct e; [destruct (Hne eq_refl)|reflexivity]).
    rewrite T. unfold get_decoded. rewrite (C15_roundtrip _ _ E). reflexivity.
  Qed.
  Lemma decode_ok v : (forall x, v = Some x -> (lenN x < 2 ^ 58)%N) -> decode_value (Some (Str (enc v))) = seen v.
  Proof. intros L. destruct v as [x|]; [apply decode_some; auto|reflexivity]. Qed.

  (** ** The invariant *)
  Definition root_known (d : kv) (h : bytes) (m : smap) : Prop := exists o, rep o m /\ good d h o.
  Record Inv (t : trie) (s : spec) (roots : list bytes) : Prop := mkInv {
    inv_ca : ca H (t_kv t);
    inv_head : exists o, rep o (sp_head s) /\ t_root t = oitem H o /\ good (t_kv t) (root_hash_of o) o;
    inv_comm : exists h, kv_get (t_kv t) rootHashKey = Ok h /\ root_known (t_kv t) h (sp_committed s);
    inv_past : Forall2 (root_known (t_kv t)) roots (sp_past s) }.

  Lemma root_known_incl d d' h m : incl d d' -> root_known d h m -> root_known d' h m.
  Proof. intros I (o & R & G). exists o. split; auto. eapply good_incl; eauto. Qed.
  Lemma past_incl d d' roots ms : incl d d' -> Forall2 (root_known d) roots ms -> Forall2 (root_known d') roots ms.
  Proof. intros I F. induction F; constructor; auto. eapply root_known_incl; eauto. Qed.

  Lemma past_nth d roots ms i : Forall2 (root_known d) roots ms -> i < length ms ->
    root_known d (nth i roots []) (nth i ms smap_empty).
  Proof.
    intros F. revert i. induction F as [|h m roots ms K F IH]; intros i Hi; cbn [length] in Hi; [lia|].
    destruct i as [|i]; cbn [nth]; auto. apply IH. lia.
  Qed.

  (** What an operation does to the store *)
  Lemma new_puts_app d new : new_puts d (new ++ d) = new.
  Proof.
    unfold new_puts. rewrite app_length. replace (length new + length d - length d) with (length new) by lia.
    rewrite firstn_app, Nat.sub_diag, firstn_O, app_nil_r. apply firstn_all.
  Qed.
  Lemma ext_new d d' : ext H d d' -> d' = new_puts d d' ++ d.
  Proof. intros (n & -> & _). rewrite new_puts_app. reflexivity. Qed.

  (** Starting again from a store *)
  Lemma reopen_ok d h m t : kv_get d rootHashKey = Ok h -> root_known d h m -> no_collision d ->
    exists t', reopen H d t = (t', Ok tt) /\ t_kv t' = d /\ exists o, rep o m /\ t_root t' = oitem H o /\ good d h o.
  Proof.
    intros Eh (o & R & G) N. exists (mkTrie d (oitem H o)). unfold reopen, open_state. rewrite Eh.
    rewrite (open_root d h o); auto; try apply R. cbn [bind]. split; auto. split; auto. exists o. auto.
  Qed.

  (** ** One operation *)
  Definition simple (o : op) : Prop := match o with OCrash _ _ => False | _ => True end.

  Lemma run_simple r s o : Inv (r_trie r) s (r_roots r) -> simple o -> op_ok limit (length (sp_past s)) o ->
    (forall h, In h (r_roots r) -> isHex h = false) ->
    let '(t', x, new) := run_op H limit r o in
    t_kv t' = new ++ t_kv (r_trie r) /\
    (no_collision (t_kv t') ->
     x = Ok tt /\ ca H (t_kv t') /\
     (exists ot, rep ot (fst (spec_do s o)) /\ t_root t' = oitem H ot /\ good (t_kv t') (root_hash_of ot) ot) /\
     (exists h, kv_get (t_kv t') rootHashKey = Ok h /\ root_known (t_kv t') h (snd (spec_do s o))) /\
     (forall n, 0 < n -> kv_get (skipn n new ++ t_kv (r_trie r)) rootHashKey = kv_get (t_kv (r_trie r)) rootHashKey)).
  Proof.
    intros [Ca (oh & Rh & Th & Gh) (hc & Ec & Kc) Hp] Hs Hok Hex. pose proof Hok as Hok'.
    set (t := r_trie r) in *.
    assert (Change : forall m ot hm, grows H m -> (no_collision (t_kv (fst (change_root H t m))) -> rep ot hm) ->
      (no_collision (t_kv (fst (change_root H t m))) -> wp H m (t_kv t) (fun i d' => i = oitem H ot /\ okept H d' ot)) ->
      let '(t', x, new) := (fst (change_root H t m), snd (change_root H t m), new_puts (t_kv t) (t_kv (fst (change_root H t m)))) in
      t_kv t' = new ++ t_kv t /\
      (no_collision (t_kv t') ->
       x = Ok tt /\ ca H (t_kv t') /\
       (exists ot, rep ot hm /\ t_root t' = oitem H ot /\ good (t_kv t') (root_hash_of ot) ot) /\
       (exists h, kv_get (t_kv t') rootHashKey = Ok h /\ root_known (t_kv t') h (sp_committed s)) /\
       (forall n, 0 < n -> kv_get (skipn n new ++ t_kv t) rootHashKey = kv_get (t_kv t) rootHashKey))).
    { intros m ot hm Gm Rep Wm. pose proof (change_ext t m Gm) as E. split; [apply ext_new; auto|]. intros N.
      destruct (Rep N) as (W & B & Rest).
      destruct (change_ok t m ot Gm W B N (Wm N)) as (Ex & Er & Gr).
      split; auto. split; [eapply ext_ca; eauto|].
      split; [exists ot; split; [apply Rep; auto|auto]|].
      split.
      - exists hc. split; [rewrite (kv_get_ext H Hlen _ _ _ E eq_refl); auto|]. eapply root_known_incl; [apply (ext_incl _ _ _ E)|auto].
      - intros n _. apply (kv_get_ext H Hlen); auto. destruct E as (nw & E & F). rewrite E, new_puts_app. exists (skipn n nw). split; auto.
        apply Forall_forall. intros e He. rewrite Forall_forall in F. apply F. rewrite <- (firstn_skipn n nw). apply in_or_app. auto. }
    destruct o as [k v|k|[i|]|i| |n o]; cbn [run_op spec_do fst snd] in *; try contradiction.
    - destruct Hok as (Hk & Hl & Lk & Lv). fold t. unfold s_set. rewrite enc_encode by auto. unfold t_update.
      destruct (change_root H t _) as [t' x] eqn:Ec'.
      specialize (Change (update_f H limit (t_root t) (bin_to_nibbles k) (enc (Some v)))
                    (Some (oupd oh (bin_to_nibbles k) (enc (Some v)))) (smap_set (sp_head s) k (Some v))).
      rewrite Ec' in Change. cbn [fst snd] in Change. apply Change.
      + apply grows_update.
      + intros _. apply rep_set; auto.
      + intros N. rewrite Th. destruct Rh as (W & B & _). eapply wp_conseq; [apply oupdate_refines; auto|].
        * eapply good_stored; eauto.
        * apply bin_to_nibbles_nibbles; auto.
        * rewrite bin_to_nibbles_length. auto.
        * apply enc_ne.
        * apply lenN_bin; auto.
        * apply lenN_enc; auto.
        * intros i d' [-> K]. split; auto.
    - destruct Hok as (Hk & Hl). fold t. unfold s_remove, t_delete.
      destruct (change_root H t _) as [t' x] eqn:Ec'.
      specialize (Change (delete_f H limit (t_root t) (bin_to_nibbles k)) (odel oh (bin_to_nibbles k)) (smap_set (sp_head s) k None)).
      rewrite Ec' in Change. cbn [fst snd] in Change. apply Change.
      + apply grows_delete.
      + intros _. apply rep_remove; auto.
      + intros N. rewrite Th. destruct Rh as (W & B & _). apply odelete_refines; auto.
        * eapply good_stored; eauto.
        * apply bin_to_nibbles_nibbles; auto.
        * rewrite bin_to_nibbles_length. auto.
    - fold t. pose proof (past_nth _ _ _ i Hp Hok) as K. fold (root_at r i) in K.
      assert (Hin : In (root_at r i) (r_roots r)).
      { apply nth_In. rewrite (Forall2_len _ _ _ Hp). auto. }
      destruct K as (oc & Rc & Gc). pose proof (good_hash _ _ _ Gc) as Ehash. pose proof (root_hash_len oc) as Lr.
      rewrite <- Ehash in Lr. unfold s_commit. pose proof (Hex _ Hin) as Hx. unfold past.
      set (h := root_at r i) in *. clearbody h. destruct h as [|b bs] eqn:Eb; [discriminate|]. rewrite <- Eb in *.
      rewrite Hx. cbn [t_kv t_root]. change ((rootHashKey, h) :: t_kv t) with ([(rootHashKey, h)] ++ t_kv t).
      rewrite new_puts_app. split; [reflexivity|]. intros N.
      assert (I : incl (t_kv t) ([(rootHashKey, h)] ++ t_kv t)) by (apply incl_appr, incl_refl).
      split; auto. split.
      { intros k v [E|Hin']; [injection E as <- <-; auto|apply Ca; auto]. }
      split; [exists oh; split; auto; split; auto; eapply good_incl; eauto|].
      split; [exists h; split; [reflexivity|]; exists oc; split; auto; eapply good_incl; eauto|].
      intros n Hn. destruct n; [lia|]. destruct n; reflexivity.
    - fold t. unfold s_commit. destruct Rh as (W & B & R). rewrite (root_hash_ok t oh W B Th). cbn [t_kv t_root].
      set (h := root_hash_of oh) in *.
      change ((rootHashKey, h) :: t_kv t) with ([(rootHashKey, h)] ++ t_kv t).
      rewrite new_puts_app. split; [reflexivity|]. intros N.
      assert (I : incl (t_kv t) ([(rootHashKey, h)] ++ t_kv t)) by (apply incl_appr, incl_refl).
      assert (Rh : rep oh (sp_head s)) by (split; auto).
      split; auto. split.
      { intros k v [E|Hin']; [injection E as <- <-; auto|apply Ca; auto]. }
      split; [exists oh; split; auto; split; auto; eapply good_incl; eauto|].
      split; [exists h; split; [reflexivity|]; exists oh; split; auto; eapply good_incl; eauto|].
      intros n Hn. destruct n; [lia|]. destruct n; reflexivity.
    - fold t. pose proof (past_nth _ _ _ i Hp Hok) as K. fold (root_at r i) in K. destruct K as (oc & Rc & Gc).
      unfold s_revert. destruct (change_root H t _) as [t' x] eqn:Ec'.
      specialize (Change (lift (hash_to_node H t (root_at r i))) oc (past s i)).
      rewrite Ec' in Change. cbn [fst snd] in Change. apply Change.
      + apply grows_lift.
      + intros _. exact Rc.
      + intros N. destruct Rc as (W & B & _).
        assert (N0 : no_collision (t_kv t)).
        { eapply nocoll_ext; [|exact N]. pose proof (change_ext t (lift (hash_to_node H t (root_at r i))) (grows_lift H _)) as E.
          rewrite Ec' in E. exact E. }
        apply (wp_lift H (oitem H oc)); [apply hash_node; auto|]. split; auto. eapply good_kept; eauto.
    - fold t. destruct (reopen H (t_kv t) t) as [t' x] eqn:Er.
      assert (Ekv : t_kv t' = t_kv t).
      { unfold reopen, open_state in Er. rewrite Ec in Er. destruct (root_node_of _ _ _ _); cbn [bind] in Er; injection Er as <- _; reflexivity. }
      rewrite Ekv. assert (En : new_puts (t_kv t) (t_kv t) = []) by (apply (new_puts_app (t_kv t) [])).
      rewrite En. split; auto. intros N.
      destruct (reopen_ok (t_kv t) hc (sp_committed s) t Ec Kc N) as (t2 & E2 & Ekv2 & ot & Rt & Tt & Gt).
      rewrite Er in E2. injection E2 as -> ->.
      split; auto. split; auto. split.
      + exists ot. split; auto. split; auto. rewrite <- (good_hash _ _ _ Gt). auto.
      + split; [exists hc; auto|]. intros n _. destruct n; reflexivity.
  Qed.

  Lemma simple_or_crash o : simple o \/ exists n o', o = OCrash n o'.
  Proof. destruct o; cbn; eauto. Qed.

  Lemma step_ok r s xs o : Inv (r_trie r) s (r_roots r) -> incl (t_kv (r_trie r)) (r_puts r) ->
    op_ok limit (length (sp_past s)) o -> (forall h, In h (r_roots r) -> isHex h = false) ->
    let '(r', xs') := step H limit (r, xs) o in
    (exists new, r_puts r' = new ++ r_puts r) /\ (exists h, r_roots r' = r_roots r ++ [h]) /\
    (no_collision (r_puts r') ->
     Inv (r_trie r') (spec_step s o) (r_roots r') /\ incl (t_kv (r_trie r')) (r_puts r') /\ xs' = xs ++ [Ok tt]).
  Proof.
    intros I Hi Hok Hex.
    assert (Fin : forall t' new, incl (t_kv t') (new ++ t_kv (r_trie r)) -> incl (t_kv (r_trie r)) (t_kv t') ->
      ca H (t_kv t') ->
      (exists ot, rep ot (fst (spec_do s o)) /\ t_root t' = oitem H ot /\ good (t_kv t') (root_hash_of ot) ot) ->
      (exists h, kv_get (t_kv t') rootHashKey = Ok h /\ root_known (t_kv t') h (snd (spec_do s o))) ->
      Inv t' (spec_step s o) (r_roots r ++ [match get_root_hash H t' with Ok h => h | Err _ => [] end]) /\
      incl (t_kv t') (new ++ r_puts r)).
    { intros t' new Inc Inc' Ca (ot & Ro & To & Go) Hc. split.
      - unfold spec_step. destruct (spec_do s o) as [hh cc]. cbn [fst snd] in *.
        constructor; cbn [sp_head sp_committed sp_past]; auto; [exists ot; auto|].
        apply Forall2_app; [eapply past_incl; [exact Inc'|apply I]|]. constructor; [|constructor].
        rewrite (root_hash_ok t' ot) by (auto; apply Ro). exists ot. auto.
      - intros x Hx. apply Inc in Hx. apply in_app_or in Hx as [Hx|Hx]; apply in_or_app; auto. }
    cbn [step]. destruct (simple_or_crash o) as [Hs|(n & o' & ->)].
    - pose proof (run_simple r s o I Hs Hok Hex) as R. destruct (run_op H limit r o) as [[t' x] new].
      destruct R as [Ekv R]. cbn [r_trie r_roots r_puts]. split; [eauto|]. split; [eauto|]. intros N.
      assert (N' : no_collision (t_kv t')).
      { eapply nocoll_incl; [|exact N]. rewrite Ekv. apply incl_app; [apply incl_appl, incl_refl|apply incl_appr; auto]. }
      destruct (R N') as (-> & Ca & Hh & Hc & _).
      assert (I1 : incl (t_kv t') (new ++ t_kv (r_trie r))) by (rewrite Ekv; apply incl_refl).
      assert (I2 : incl (t_kv (r_trie r)) (t_kv t')) by (rewrite Ekv; apply incl_appr, incl_refl).
      destruct (Fin t' new I1 I2 Ca Hh Hc) as [F1 F2].
      split; auto.
    - destruct Hok as [Hok Hs]. cbn [run_op].
      pose proof (run_simple r s o' I Hs Hok Hex) as R. destruct (run_op H limit r o') as [[t' x] new].
      destruct R as [Ekv R]. destruct (reopen H (skipn n new ++ t_kv (r_trie r)) (r_trie r)) as [t2 x2] eqn:Er.
      cbn [r_trie r_roots r_puts]. split; [eauto|]. split; [eauto|]. intros N.
      assert (N' : no_collision (t_kv t')).
      { eapply nocoll_incl; [|exact N]. rewrite Ekv. apply incl_app; [apply incl_appl, incl_refl|apply incl_appr; auto]. }
      destruct (R N') as (-> & Ca & Hh & (h' & Eh' & Kh') & Hroot).
      assert (Isk : incl (skipn n new ++ t_kv (r_trie r)) (t_kv t')).
      { rewrite Ekv. apply incl_app; [|apply incl_appr, incl_refl]. apply incl_appl. intros e He.
        rewrite <- (firstn_skipn n new). apply in_or_app. auto. }
      assert (Iold : incl (t_kv (r_trie r)) (skipn n new ++ t_kv (r_trie r))) by (apply incl_appr, incl_refl).
      assert (N2 : no_collision (skipn n new ++ t_kv (r_trie r))) by (eapply nocoll_incl; eauto).
      assert (Hc : exists h, kv_get (skipn n new ++ t_kv (r_trie r)) rootHashKey = Ok h /\
                root_known (skipn n new ++ t_kv (r_trie r)) h (if n =? 0 then snd (spec_do s o') else sp_committed s)).
      { destruct (Nat.eqb_spec n 0) as [->|Hn].
        - cbn [skipn] in *. exists h'. rewrite <- Ekv. auto.
        - destruct I as [_ _ (hc & Ec & Kc) _]. exists hc. rewrite Hroot by lia. split; auto. eapply root_known_incl; eauto. }
      destruct Hc as (hc & Ec & Kc).
      destruct (reopen_ok _ hc _ (r_trie r) Ec Kc N2) as (t3 & E3 & Ekv3 & ot & Ro & To & Go).
      rewrite Er in E3. injection E3 as -> ->.
      assert (I1 : incl (t_kv t3) (new ++ t_kv (r_trie r))) by (rewrite Ekv3, <- Ekv; auto).
      assert (I2 : incl (t_kv (r_trie r)) (t_kv t3)) by (rewrite Ekv3; auto).
      assert (Ca3 : ca H (t_kv t3)) by (rewrite Ekv3; intros k v Hkv; apply Ca; apply Isk; auto).
      destruct (Fin t3 new I1 I2 Ca3) as [F1 F2].
      + cbn [spec_do fst]. exists ot. rewrite Ekv3. split; auto. split; auto. rewrite <- (good_hash _ _ _ Go). auto.
      + cbn [spec_do snd]. exists hc. rewrite Ekv3. split; auto.
      + split; auto.
  Qed.

  Lemma init_eq : run_init H = mkRun (mkTrie [(rootHashKey, BLANK_ROOT H)] BLANK_NODE) [BLANK_ROOT H] [(rootHashKey, BLANK_ROOT H)].
  Proof. reflexivity. Qed.
  Lemma init_inv : Inv (r_trie (run_init H)) spec_init (r_roots (run_init H)).
  Proof.
    rewrite init_eq. cbn [r_trie r_roots]. constructor; cbn [t_kv t_root spec_init sp_head sp_committed sp_past].
    - intros k v [E|[]]. injection E as <- <-. auto.
    - exists None. split; [apply rep_empty|]. split; reflexivity.
    - exists (BLANK_ROOT H). split; [reflexivity|]. exists None. split; [apply rep_empty|reflexivity].
    - constructor; [|constructor]. exists None. split; [apply rep_empty|reflexivity].
  Qed.

  Lemma spec_past_length ops : length (sp_past (spec_run ops)) = S (length ops).
  Proof.
    induction ops as [|o ops IH] using rev_ind; [reflexivity|]. unfold spec_run in *. rewrite fold_left_app. cbn [fold_left].
    unfold spec_step at 1. destruct (spec_do _ o). cbn [sp_past]. rewrite app_length, IH, app_length. cbn [length]. lia.
  Qed.
  Lemma run_app ops o : run H limit (ops ++ [o]) = step H limit (run H limit ops) o.
  Proof. unfold run. rewrite fold_left_app. reflexivity. Qed.
  Lemma spec_run_app ops o : spec_run (ops ++ [o]) = spec_step (spec_run ops) o.
  Proof. unfold spec_run. rewrite fold_left_app. reflexivity. Qed.

  Theorem run_inv ops : ops_ok limit 1 ops -> no_collision (r_puts (fst (run H limit ops))) ->
    (forall h, In h (r_roots (fst (run H limit ops))) -> isHex h = false) ->
    Inv (r_trie (fst (run H limit ops))) (spec_run ops) (r_roots (fst (run H limit ops))) /\
    incl (t_kv (r_trie (fst (run H limit ops)))) (r_puts (fst (run H limit ops))) /\
    snd (run H limit ops) = repeat (Ok tt) (length ops).
  Proof.
    induction ops as [|o ops IH] using rev_ind; intros Hok N Hex.
    - split; [apply init_inv|]. split; [|reflexivity]. change (run H limit []) with (run_init H, @nil (res unit)).
      cbn [fst]. rewrite init_eq. apply incl_refl.
    - apply ops_ok_app in Hok as [Hok [Ho _]]. rewrite run_app in *. rewrite spec_run_app.
      destruct (run H limit ops) as [r xs]. cbn [fst snd] in *.
      assert (Step : (exists new, r_puts (fst (step H limit (r, xs) o)) = new ++ r_puts r) /\
                     (exists h, r_roots (fst (step H limit (r, xs) o)) = r_roots r ++ [h])).
      { cbn [step]. destruct (run_op H limit r o) as [[t' x] new]. cbn [fst r_puts r_roots]. eauto. }
      destruct Step as [[new En] [h Eh]].
      destruct IH as (I & Hi & Hxs); auto.
      { eapply nocoll_incl; [|exact N]. rewrite En. apply incl_appr, incl_refl. }
      { intros h' Hh'. apply Hex. rewrite Eh. apply in_or_app. auto. }
      pose proof (step_ok r (spec_run ops) xs o I Hi) as St. rewrite spec_past_length in St.
      specialize (St Ho). destruct (step H limit (r, xs) o) as [r' xs']. cbn [fst snd] in *.
      destruct St as (_ & _ & St). { intros h' Hh'. apply Hex. rewrite Eh. apply in_or_app. auto. }
      destruct (St N) as (I' & Hi' & ->). split; auto. split; auto.
      rewrite Hxs, app_length. cbn [length]. rewrite repeat_app. reflexivity.
  Qed.

  (** ** Proofs *)
  Definition entry (n : item) : bytes * bytes := (H (rlp n), rlp n).
  Definition encodable (n : item) : Prop := rlp_encode n = Ok (rlp n).

  Lemma proof_store_ok nodes d : Forall encodable nodes -> proof_store H nodes d = Ok (rev (map entry nodes) ++ d).
  Proof.
    intros F. revert d. induction F as [|n ns E F IH]; intros d; cbn [proof_store map rev]; auto.
    unfold encodable in E. rewrite E. cbn [bind]. rewrite IH. rewrite <- app_assoc. reflexivity.
  Qed.
  Lemma encode_rlp i r : rlp_encode i = Ok r -> r = rlp i.
  Proof. unfold rlp_encode. destruct (_ : bool); intros E; congruence. Qed.
  Lemma proof_store_inv nodes d d' : proof_store H nodes d = Ok d' -> Forall encodable nodes /\ d' = rev (map entry nodes) ++ d.
  Proof.
    revert d. induction nodes as [|n ns IH]; intros d; cbn [proof_store map rev].
    - intros E. injection E as <-. split; [constructor|reflexivity].
    - destruct (rlp_encode n) as [r|e] eqn:E; cbn [bind]; [|discriminate]. intros E2. apply IH in E2 as [F ->].
      pose proof (encode_rlp _ _ E) as ->. split; [constructor; auto|]. rewrite <- app_assoc. reflexivity.
  Qed.
  Lemma in_proof_in nodes n : Forall encodable nodes -> In n nodes -> in_proof nodes n = true.
  Proof.
    intros F Hin. rewrite Forall_forall in F. unfold in_proof. pose proof (F n Hin) as E. unfold encodable in E. rewrite E.
    apply existsb_exists. exists n. rewrite E, bytes_eqb_refl. auto.
  Qed.

  Lemma path_encodable t : wf t -> bnd t -> forall key, is_nibbles key -> forall i, In i (tpath H t key) -> encodable i.
  Proof.
    assert (Gr : forall c i, wf c -> bnd c -> In i (grabbed H c) -> encodable i).
    { intros c i W B Hi. unfold grabbed in Hi. destruct (_ <? _); [destruct Hi|]. destruct Hi as [<-|[]]. apply node_encode; auto. }
    induction t as [k v|k c IH|cs v IH] using tnode_ind'; intros W B key Hk i Hi;
      inversion W as [? ? Wk Wv|? ? Wk Wn Wb Wc|? ? Wl Wcs We]; subst.
    - destruct Hi.
    - cbn [tpath] in Hi. destruct (starts_with key k) eqn:Es; [|destruct Hi].
      apply starts_with_spec in Es as [r ->]. rewrite skipn_app_exact in Hi. apply is_nibbles_app in Hk as [_ Hr].
      pose proof (bnd_ext k c Wk B) as Bc. apply in_app_or in Hi as [Hi|Hi]; eauto.
    - destruct key as [|k0 ks]; [destruct Hi|]. rewrite tpath_branch in Hi. apply nibble_lt in Hk as [Hk0 Hks].
      assert (Hin : In (nth (N.to_nat k0) cs None) cs) by (apply nth_In; lia).
      destruct (nth (N.to_nat k0) cs None) as [c|]; [|destruct Hi]. cbn [opath] in Hi.
      pose proof (bnd_child cs v c Wl B Hin) as Bc. apply in_app_or in Hi as [Hi|Hi]; eauto.
  Qed.

  (** What the proof of [key] from an abstract trie consists of *)
  Definition proof_nodes (o : option tnode) (key : bytes) : list item := orpath o (bin_to_nibbles key) ++ [oitem H o].

  Lemma verify_complete o m h key nodes : rep o m -> h = root_hash_of o -> is_bytes key -> 2 * length key < limit ->
    Forall encodable nodes -> incl (proof_nodes o key) nodes -> no_collision (map entry nodes) ->
    exists d r, proof_store H nodes [] = Ok d /\ root_node_of H (in_proof nodes) d h = Ok r /\
      exists g, get_f (in_proof nodes) limit d r (bin_to_nibbles key) = Ok (Some (Str (enc (m key))), g).
  Proof.
    intros R -> Hk Hl F Inc N. pose proof R as (W & B & G & _).
    exists (rev (map entry nodes) ++ []), (oitem H o). split; [apply proof_store_ok; auto|].
    assert (N' : no_collision (rev (map entry nodes) ++ [])).
    { eapply nocoll_incl; [|exact N]. rewrite app_nil_r. intros e He. apply in_rev in He. auto. }
    assert (St : forall i, In i (proof_nodes o key) -> in_store H (rev (map entry nodes) ++ []) i /\ in_proof nodes i = true).
    { intros i Hi. apply Inc in Hi. split; [|apply in_proof_in; auto]. unfold in_store. rewrite app_nil_r, <- in_rev.
      apply (in_map entry) in Hi. exact Hi. }
    pose proof (bin_to_nibbles_nibbles key Hk) as Hn.
    assert (Hf : length (bin_to_nibbles key) < limit) by (rewrite bin_to_nibbles_length; auto).
    rewrite <- G by auto. split.
    - unfold root_node_of. rewrite root_hash_len. cbn [Nat.eqb orb negb]. destruct o as [t|]; cbn [root_hash_of oitem owf obnd] in *.
      + destruct (St (item_of H t)) as [S1 S2]; [apply in_or_app; right; left; reflexivity|].
        rewrite bytes_eqb_neq by (eapply not_blank_root; eauto).
        rewrite decode_hash by (destruct (H_cons H Hlen (rlp (item_of H t))) as (? & ? & ->); discriminate).
        rewrite kv_get_hash by auto. cbn [bind]. rewrite node_decode by auto. cbn [bind]. rewrite S2. reflexivity.
      + rewrite bytes_eqb_refl. reflexivity.
    - exists (orpath o (bin_to_nibbles key)). destruct o as [t|]; cbn [oitem orpath oget owf obnd] in *.
      + apply get_path; auto; intros i Hi; apply St; apply in_or_app; auto.
      + destruct limit; [lia|]. reflexivity.
  Qed.

  Lemma same_value_refl b : same_value (Some (Str b)) b = true.
  Proof. unfold same_value, item_eqb. destruct (item_eq_dec _ _); congruence. Qed.
  Lemma same_value_true v b : same_value v b = true -> v = Some (Str b).
  Proof.
    unfold same_value. destruct v as [i|]; [|discriminate]. unfold item_eqb. destruct (item_eq_dec i (Str b)); [congruence|discriminate].
  Qed.

  Lemma encode_value_ok v : (forall x, v = Some x -> (lenN x < 2 ^ 58)%N) -> encode_value v = Ok (enc v).
  Proof. destruct v as [x|]; intros L; [apply enc_encode; auto|reflexivity]. Qed.
  Lemma encode_value_inv v e : encode_value v = Ok e -> e = enc v.
  Proof. destruct v as [x|]; cbn [encode_value]; intros E; [apply encode_rlp; auto|cbn; congruence]. Qed.
  Lemma encode_value_inj v w e : encode_value v = Ok e -> encode_value w = Ok e -> v = w.
  Proof.
    destruct v as [x|], w as [y|]; cbn [encode_value]; intros E1 E2.
    - apply C15_roundtrip in E1. apply C15_roundtrip in E2. congruence.
    - injection E2 as <-. pose proof (encode_rlp _ _ E1) as Z. destruct (enc_ne x). symmetry. exact Z.
    - injection E1 as <-. pose proof (encode_rlp _ _ E2) as Z. destruct (enc_ne y). symmetry. exact Z.
    - reflexivity.
  Qed.

  (** Soundness against a stored trie *)
  Lemma verify_sound o m h d nodes key v : rep o m -> good d h o -> is_bytes key ->
    no_collision (d ++ map entry nodes) ->
    verify_spv_proof H limit h key (enc v) nodes = Ok true -> enc v = enc (m key).
  Proof.
    intros R Gd Hk N. unfold verify_spv_proof.
    destruct (proof_store H nodes []) as [d'|e] eqn:Ed; cbn [bind]; [|discriminate].
    apply proof_store_inv in Ed as [F Ed]. rewrite app_nil_r in Ed.
    destruct (root_node_of H (in_proof nodes) d' h) as [r|e] eqn:Er; cbn [bind]; [|discriminate].
    destruct (get_f (in_proof nodes) limit d' r (bin_to_nibbles key)) as [[v' g]|e] eqn:Eg; cbn [bind]; [|discriminate].
    intros E. injection E as E. apply same_value_true in E.
    destruct R as (W & B & G & _). rewrite <- G by auto.
    assert (Inc : incl d' (map entry nodes)) by (subst d'; intros x Hx; apply in_rev in Hx; auto).
    assert (N' : no_collision (d ++ d')).
    { eapply nocoll_incl; [|exact N]. apply incl_app; [apply incl_appl, incl_refl|apply incl_appr; auto]. }
    destruct o as [t|]; cbn [root_hash_of oitem good owf obnd oget] in *.
    - destruct Gd as (-> & Hin & St). assert (Hin' : In (entry (item_of H t)) (d ++ d')) by (apply in_or_app; auto).
      assert (r = item_of H t) as ->.
      { unfold root_node_of in Er. rewrite Hlen in Er. cbn [Nat.eqb orb negb] in Er.
        rewrite bytes_eqb_neq in Er by (eapply not_blank_root; eauto).
        rewrite decode_hash in Er by (destruct (H_cons H Hlen (rlp (item_of H t))) as (? & ? & ->); discriminate).
        destruct (kv_get d' (H (rlp (item_of H t)))) as [b|e] eqn:Eb; cbn [bind] in Er; [|discriminate].
        apply kv_get_in in Eb.
        assert (b = rlp (item_of H t)) as ->.
        { apply (N' (H (rlp (item_of H t)))); [right; apply in_or_app; auto|right; auto|apply H_not_root; auto]. }
        rewrite node_decode in Er by auto. cbn [bind] in Er. destruct (in_proof nodes (item_of H t)); cbn [bind] in Er; congruence. }
      pose proof (get_sound H Hlen (in_proof nodes) t W B d d' N' St limit (bin_to_nibbles key) v' g (bin_to_nibbles_nibbles key Hk) Eg) as Ev.
      congruence.
    - subst h. unfold root_node_of in Er. unfold BLANK_ROOT at 1 2 in Er. rewrite !Hlen in Er. cbn [Nat.eqb orb negb] in Er.
      rewrite bytes_eqb_refl in Er. injection Er as <-. destruct limit; [discriminate|]. cbn in Eg. injection Eg as <- _. injection E as E. exact (eq_sym E).
  Qed.

  (** Two accepted proofs for one root and key *)
  Lemma get_agree ok1 ok2 d1 d2 : no_collision (d1 ++ d2) ->
    (forall k v, In (k, v) (d1 ++ d2) -> k <> rootHashKey) ->
    forall fuel node key v1 g1 v2 g2, get_f ok1 fuel d1 node key = Ok (v1, g1) -> get_f ok2 fuel d2 node key = Ok (v2, g2) -> v1 = v2.
  Proof.
    intros N Hk.
    assert (Dec : forall e n1 g1 n2 g2, decode_to_node ok1 d1 e = Ok (n1, g1) -> decode_to_node ok2 d2 e = Ok (n2, g2) -> n1 = n2).
    { intros e n1 g1 n2 g2. unfold decode_to_node. destruct e as [[|b bs]|l]; try (intros E1 E2; congruence).
      set (h := b :: bs). destruct (kv_get d1 h) as [b1|] eqn:K1; cbn [bind]; [|discriminate].
      destruct (kv_get d2 h) as [b2|] eqn:K2; cbn [bind]; [|discriminate].
      apply kv_get_in in K1. apply kv_get_in in K2.
      assert (b1 = b2) as -> by (apply (N h); [right; apply in_or_app; auto|right; apply in_or_app; auto|apply (Hk h b1); apply in_or_app; auto]).
      destruct (rlp_decode b2) as [o|]; cbn [bind]; [|discriminate].
      destruct (ok1 o), (ok2 o); try discriminate. intros E1 E2. congruence. }
    induction fuel as [|fuel IH]; intros node key v1 g1 v2 g2; [discriminate|]. cbn [get_f].
    destruct (get_node_type node) as [nt|]; cbn [bind]; [|discriminate]. destruct nt.
    - intros E1 E2. congruence.
    - destruct (key_nibbles node); cbn [bind]; [|discriminate]. destruct (get_item _ _); cbn [bind]; [|discriminate]. intros; congruence.
    - destruct (key_nibbles node) as [ck|]; cbn [bind]; [|discriminate]. destruct (starts_with key ck); [|intros; congruence].
      destruct (get_item (items_of node) 1) as [e|]; cbn [bind]; [|discriminate].
      destruct (decode_to_node ok1 d1 e) as [[n1 h1]|] eqn:D1; cbn [bind]; [|discriminate].
      destruct (decode_to_node ok2 d2 e) as [[n2 h2]|] eqn:D2; cbn [bind]; [|discriminate].
      pose proof (Dec _ _ _ _ _ D1 D2) as ->.
      destruct (get_f ok1 fuel d1 n2 _) as [[w1 k1]|] eqn:G1; cbn [bind]; [|discriminate].
      destruct (get_f ok2 fuel d2 n2 _) as [[w2 k2]|] eqn:G2; cbn [bind]; [|discriminate].
      pose proof (IH _ _ _ _ _ _ G1 G2). intros; congruence.
    - destruct key as [|k0 ks].
      + destruct (get_item _ _); cbn [bind]; [|discriminate]. intros; congruence.
      + destruct (get_item (items_of node) _) as [e|]; cbn [bind]; [|discriminate].
        destruct (decode_to_node ok1 d1 e) as [[n1 h1]|] eqn:D1; cbn [bind]; [|discriminate].
        destruct (decode_to_node ok2 d2 e) as [[n2 h2]|] eqn:D2; cbn [bind]; [|discriminate].
        pose proof (Dec _ _ _ _ _ D1 D2) as ->.
        destruct (get_f ok1 fuel d1 n2 _) as [[w1 k1]|] eqn:G1; cbn [bind]; [|discriminate].
        destruct (get_f ok2 fuel d2 n2 _) as [[w2 k2]|] eqn:G2; cbn [bind]; [|discriminate].
        pose proof (IH _ _ _ _ _ _ G1 G2). intros; congruence.
    - destruct (key_nibbles node); cbn [bind]; [|discriminate]. intros; congruence.
  Qed.

  Lemma entries_no_root nodes : forall k v, In (k, v) (map entry nodes) -> k <> rootHashKey.
  Proof.
    intros k v Hin. apply in_map_iff in Hin as (n & E & _). injection E as <- _. apply H_not_root; auto.
  Qed.

  Lemma spv_binding h key e1 e2 n1 n2 : no_collision (map entry n1 ++ map entry n2) ->
    verify_spv_proof H limit h key e1 n1 = Ok true -> verify_spv_proof H limit h key e2 n2 = Ok true -> e1 = e2.
  Proof.
    intros N. unfold verify_spv_proof.
    destruct (proof_store H n1 []) as [d1|e] eqn:Ed1; cbn [bind]; [|discriminate].
    destruct (proof_store H n2 []) as [d2|e] eqn:Ed2; cbn [bind]; [|discriminate].
    apply proof_store_inv in Ed1 as [_ Ed1]. apply proof_store_inv in Ed2 as [_ Ed2]. rewrite app_nil_r in Ed1, Ed2.
    assert (N' : no_collision (d1 ++ d2)).
    { eapply nocoll_incl; [|exact N]. subst. intros x Hx. apply in_app_or in Hx as [Hx|Hx]; apply in_rev in Hx; apply in_or_app; auto. }
    assert (K : forall k v, In (k, v) (d1 ++ d2) -> k <> rootHashKey).
    { intros k v Hx. subst. apply in_app_or in Hx as [Hx|Hx]; apply in_rev in Hx; eapply entries_no_root; eauto. }
    clear Ed1 Ed2.
    destruct (root_node_of H (in_proof n1) d1 h) as [r1|e] eqn:Er1; cbn [bind]; [|discriminate].
    destruct (root_node_of H (in_proof n2) d2 h) as [r2|e] eqn:Er2; cbn [bind]; [|discriminate].
    assert (r1 = r2) as ->.
    { unfold root_node_of in *. destruct (negb _); [discriminate|]. destruct (bytes_eqb h _); [congruence|].
      destruct h as [|b bs]; [cbn in *; congruence|]. rewrite decode_hash in Er1, Er2 by discriminate. set (hh := b :: bs) in *.
      destruct (kv_get d1 hh) as [b1|] eqn:K1; cbn [bind] in Er1; [|discriminate].
      destruct (kv_get d2 hh) as [b2|] eqn:K2; cbn [bind] in Er2; [|discriminate].
      apply kv_get_in in K1. apply kv_get_in in K2.
      assert (b1 = b2) as -> by (apply (N' hh); [right; apply in_or_app; auto|right; apply in_or_app; auto|apply (K hh b1); apply in_or_app; auto]).
      destruct (rlp_decode b2) as [o|]; cbn [bind] in *; [|discriminate].
      destruct (in_proof n1 o), (in_proof n2 o); cbn [bind] in *; congruence. }
    destruct (get_f (in_proof n1) limit d1 r2 _) as [[v1 g1]|] eqn:G1; cbn [bind]; [|discriminate].
    destruct (get_f (in_proof n2) limit d2 r2 _) as [[v2 g2]|] eqn:G2; cbn [bind]; [|discriminate].
    intros E1 E2. injection E1 as E1. injection E2 as E2. apply same_value_true in E1, E2.
    pose proof (get_agree _ _ _ _ N' K _ _ _ _ _ _ _ G1 G2). congruence.
  Qed.
End State.
