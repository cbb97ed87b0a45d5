(** Proofs of C101: the trees of Trie_Abs.v are listed in full. *)
From Coq Require Import List Arith NArith Bool Lia.
From Verif Require Import Base Rlp_Model Rlp_Props Trie_Model Trie_Spec Trie_Abs Trie_Proofs State_Proofs Listing_Model.
Import ListNotations.

(** The list of what an abstract trie holds *)
Definition olists (o : option tnode) (l : list (nibbles * item)) : Prop :=
  NoDup (map fst l) /\
  forall k x, In (k, x) l <-> exists v, x = Str v /\ v <> [] /\ is_nibbles k /\ oget o k = v.

Lemma under_fst p l : map fst (under p l) = map (fun k => p ++ k) (map fst l).
Proof. unfold under. rewrite !map_map. reflexivity. Qed.
Lemma in_under p l k x : In (k, x) (under p l) <-> exists k', k = p ++ k' /\ In (k', x) l.
Proof.
  unfold under. rewrite in_map_iff. split.
  - intros ([k' x'] & E & Hin). injection E as <- <-. eauto.
  - intros (k' & -> & Hin). exists (k', x). auto.
Qed.
Lemma nodup_under p l : NoDup (map fst l) -> NoDup (map fst (under p l)).
Proof.
  rewrite under_fst. generalize (map fst l) as ks. induction ks as [|k ks IH]; intros N; cbn [map]; [constructor|].
  inversion N as [|? ? N1 N2]; subst. constructor; [|auto].
  intros Hin. apply in_map_iff in Hin as (k' & E & Hin). apply app_inv_head in E. subst. auto.
Qed.
Lemma nodup_app {A} (a b : list A) : NoDup a -> NoDup b -> (forall x, In x a -> ~ In x b) -> NoDup (a ++ b).
Proof.
  induction a as [|x a IH]; cbn [app]; auto. intros Na Nb D. inversion Na as [|? ? N1 N2]; subst. constructor.
  - intros Hin. apply in_app_or in Hin as [Hin|Hin]; [auto|]. exact (D x (or_introl eq_refl) Hin).
  - apply IH; auto. intros y Hy. apply D. right. exact Hy.
Qed.

Section Listing.
  Variable H : bytes -> bytes.
  Hypothesis Hlen : forall x, length (H x) = 32.
  Variable limit : nat.
  Notation no_collision := (collision_free H).

  Lemma grab_enc c : wf c -> bnd c -> Forall encodable (grabbed H c).
  Proof.
    intros W B. unfold grabbed. destruct (_ <? _); [constructor|]. constructor; [|constructor]. apply node_encode; auto.
  Qed.

  Lemma each_ok f cs : forall i0,
    (forall o, In o cs -> exists l g, f (oref H o) = Ok (l, g) /\ olists o l /\
       (forall key i, is_nibbles key -> In i (opath H o key) -> In i g) /\ Forall encodable g) ->
    i0 + length cs <= 16 ->
    exists l g, each f (N.of_nat i0) (map (oref H) cs) = Ok (l, g) /\ NoDup (map fst l) /\
      (forall k x, In (k, x) l <-> exists j ks v, j < length cs /\ k = N.of_nat (i0 + j) :: ks /\ x = Str v /\ v <> [] /\
          is_nibbles ks /\ oget (nth j cs None) ks = v) /\
      (forall j ks i, j < length cs -> is_nibbles ks -> In i (opath H (nth j cs None) ks) -> In i g) /\ Forall encodable g.
  Proof.
    induction cs as [|o cs IH]; intros i0 Hf Hi; cbn [map each].
    - exists [], []. split; [reflexivity|]. split; [constructor|]. split.
      { intros k x. split; [intros []|]. intros (j & ks & v & L & _). cbn in L. lia. }
      split; [|constructor]. intros j ks i L. cbn in L. lia.
    - destruct (Hf o (or_introl eq_refl)) as (l & g & E & [N L] & C & F). rewrite E. cbn [bind].
      cbn [length] in Hi.
      destruct (IH (S i0)) as (l' & g' & E' & N' & L' & C' & F'); [intros o' Ho; apply Hf; right; exact Ho|lia|].
      replace (N.of_nat i0 + 1)%N with (N.of_nat (S i0)) by lia. rewrite E'. cbn [bind].
      eexists; eexists. split; [reflexivity|]. split.
      { rewrite map_app. apply nodup_app; [apply nodup_under; exact N|exact N'|].
        intros k Hk Hk'. apply in_map_iff in Hk as ([k1 x1] & E1 & Hk). apply in_under in Hk as (k2 & E2 & _).
        apply in_map_iff in Hk' as ([k3 x3] & E3 & Hk'). apply L' in Hk' as (j & ks & v & _ & E4 & _).
        cbn [fst] in *. subst. cbn [app] in E4. injection E4 as E4 _. lia. }
      split.
      { intros k x. rewrite in_app_iff, in_under, L'. split.
        - intros [(k' & -> & Hin)|(j & ks & v & Lj & -> & Q)].
          + apply L in Hin as (v & -> & Hv & Hn & G). exists 0, k', v. cbn [length nth app]. rewrite Nat.add_0_r.
            split; [lia|]. auto.
          + exists (S j), ks, v. cbn [length nth]. split; [lia|]. replace (i0 + S j) with (S i0 + j) by lia. auto.
        - intros (j & ks & v & Lj & -> & -> & Hv & Hn & G). destruct j as [|j]; cbn [nth length] in *.
          + left. exists ks. rewrite Nat.add_0_r. split; [reflexivity|]. apply L. exists v. auto.
          + right. exists j, ks, v. split; [lia|]. replace (i0 + S j) with (S i0 + j) by lia. auto. }
      split.
      { intros j ks i Lj Hn Hin. apply in_or_app. destruct j as [|j]; cbn [nth length] in *; [left; eapply C; eauto|].
        right. apply (C' j ks i); [lia|auto|auto]. }
      apply Forall_app; auto.
  Qed.

  Theorem to_dict_ok t : wf t -> bnd t -> forall fuel d,
    (forall k, is_nibbles k -> tget t k <> [] -> length k < fuel) -> no_collision d -> stored H d t ->
    exists l g, to_dict_f fuel d (item_of H t) = Ok (l, g) /\ olists (Some t) l /\
      (forall key i, is_nibbles key -> In i (tpath H t key) -> In i g) /\ Forall encodable g.
  Proof.
    induction t as [k v|k c IH|cs v IH] using tnode_ind'; intros W B fuel d Hf N St;
      destruct (wf_nonempty _ W) as (w & Hw & Gw); pose proof (Hf w Hw Gw) as Fw;
      (destruct fuel as [|fuel]; [lia|]); cbn [to_dict_f]; rewrite item_not_blank; rewrite (node_type_of H _ W); cbn [bind ntype];
      inversion W as [? ? Wk Wv|? ? Wk Wn Wb Wc|? ? Wl Wcs We]; subst;
      inversion St as [|? ? L1 S1|? ? L1 S1]; subst.
    - cbn [item_of]. rewrite key_nibbles_of by (auto using key_true_ne). cbn [bind items_of get_item nth_error].
      exists [(k, Str v)], []. split; [reflexivity|]. split.
      { split; [constructor; [intros []|constructor]|]. intros k' x. cbn [In oget]. rewrite tget_leaf. split.
        - intros [E|[]]. injection E as <- <-. exists v. rewrite bytes_eqb_refl. auto.
        - intros (v' & -> & Hv' & Hk' & G). left. destruct (bytes_eqb k' k) eqn:E; [|congruence].
          apply bytes_eqb_eq in E as ->. congruence. }
      split; [intros key i _ []|constructor].
    - cbn [item_of]. rewrite key_nibbles_of by auto. cbn [bind items_of get_item nth_error].
      pose proof (bnd_ext k c Wk B) as Bc. rewrite decode_ref by auto. cbn [bind].
      destruct (IH Wc Bc fuel d) as (l & g & E & [Nl Ll] & C & F); auto.
      { intros q Hq Gq. assert (Q : tget (TExt k c) (k ++ q) <> []) by (rewrite tget_ext, starts_with_app, skipn_app_exact; exact Gq).
        apply Hf in Q; [|apply is_nibbles_app; auto]. rewrite app_length in Q. destruct k; [congruence|cbn [length] in Q; lia]. }
      rewrite E. cbn [bind]. eexists; eexists. split; [reflexivity|]. split.
      { split; [apply nodup_under; exact Nl|]. intros q x. rewrite in_under. cbn [oget]. split.
        - intros (q' & -> & Hin). apply Ll in Hin as (v & -> & Hv & Hq & G). exists v. split; auto. split; auto.
          split; [apply is_nibbles_app; auto|]. rewrite tget_ext, starts_with_app, skipn_app_exact. exact G.
        - intros (v & -> & Hv & Hq & G). rewrite tget_ext in G. destruct (starts_with q k) eqn:Es; [|congruence].
          apply starts_with_spec in Es as [r ->]. rewrite skipn_app_exact in G. exists r. split; auto.
          apply is_nibbles_app in Hq as [_ Hr]. apply Ll. exists v. auto. }
      split.
      { intros key i Hk Hi. cbn [tpath] in Hi. destruct (starts_with key k) eqn:Es; [|destruct Hi].
        apply starts_with_spec in Es as [r ->]. rewrite skipn_app_exact in Hi. apply is_nibbles_app in Hk as [_ Hr].
        apply in_app_or in Hi as [Hi|Hi]; apply in_or_app; [left; exact Hi|right; eapply C; eauto]. }
      apply Forall_app. split; [apply grab_enc; auto|exact F].
    - set (child := fun e : item => (bind (decode_to_node any_node d e) (fun '(sub, g) => bind (to_dict_f fuel d sub) (fun '(l, g') => Ok (l, g ++ g'))))).
      assert (Ffuel : 1 <= fuel).
      { destruct (Nat.eq_dec (cnt is_some cs) 0) as [Z|Z].
        { unfold entries in We. destruct (nonempty v); cbn [Nat.b2n] in We; lia. }
        assert (Q : exists j c, nth j cs None = Some c /\ j < 16).
        { rewrite <- Wl. clear - Z. induction cs as [|[c|] cs IH]; [cbn in Z; lia|exists 0, c; cbn; split; [reflexivity|lia]|].
          rewrite cnt_cons in Z. destruct IH as (j & c & Q & L); [cbn in Z; lia|]. exists (S j), c. cbn. split; [exact Q|lia]. }
        destruct Q as (j & c & Q & Lj). assert (Hin : In (Some c) cs) by (rewrite <- Q; apply nth_In; lia).
        destruct (wf_nonempty c (Wcs c Hin)) as (w' & Hw' & Gw').
        assert (X : length (N.of_nat j :: w') < S fuel).
        { apply Hf; [constructor; [lia|exact Hw']|]. rewrite tget_branch, Nat2N.id, Q. exact Gw'. }
        cbn [length] in X. lia. }
      destruct (each_ok child cs 0) as (l & g & E & Nl & Ll & C & F).
      { intros o Ho. unfold child. destruct o as [c|]; cbn [oref].
        - pose proof (Wcs c Ho) as Wc. pose proof (bnd_child cs v c Wl B Ho) as Bc.
          rewrite decode_ref by auto. cbn [bind].
          destruct (IH c Ho Wc Bc fuel d) as (l & g & E & L & C & F); auto.
          { intros q Hq Gq. destruct (In_nth cs (Some c) None Ho) as (j & Lj & Q).
            assert (X : length (N.of_nat j :: q) < S fuel).
            { apply Hf; [constructor; [lia|exact Hq]|]. rewrite tget_branch, Nat2N.id, Q. exact Gq. }
            cbn [length] in X. lia. }
          rewrite E. cbn [bind]. eexists; eexists. split; [reflexivity|]. split; [exact L|]. split.
          + intros key i Hk Hi. cbn [opath] in Hi. apply in_app_or in Hi as [Hi|Hi]; apply in_or_app; [left; exact Hi|right; eapply C; eauto].
          + apply Forall_app. split; [apply grab_enc; auto|exact F].
        - cbn [decode_to_node BLANK_NODE bind]. destruct fuel as [|fuel']; [lia|]. exists [], []. split; [reflexivity|].
          split; [|split; [intros key i _ []|constructor]]. split; [constructor|]. intros k x. cbn [oget]. split; [intros []|].
          intros (v' & _ & Hv' & _ & <-). congruence. }
      { lia. }
      rewrite item_branch. cbn [items_of].
      assert (Ef : firstn 16 (map (oref H) cs ++ [Str v]) = map (oref H) cs).
      { rewrite firstn_app, map_length, Wl, Nat.sub_diag, firstn_O, app_nil_r. apply firstn_all2. rewrite map_length. lia. }
      rewrite Ef.
      change 0%N with (N.of_nat 0). rewrite E. cbn [bind].
      pose proof (branch_value H cs v Wl) as Bv. rewrite item_branch in Bv. cbn [items_of] in Bv. rewrite Bv. cbn [bind].
      eexists; eexists. split; [reflexivity|]. split.
      { assert (Hlast : forall (k : nibbles) (x : item), In (k, x) (if truthy (Str v) then [([], Str v)] else []) <-> k = [] /\ x = Str v /\ v <> []).
        { intros k x. destruct v as [|b v]; cbn [truthy].
          - split; [intros []|intros (_ & _ & Q); congruence].
          - cbn [In]. split; [intros [Q|[]]; injection Q as <- <-; split; [auto|split; [auto|discriminate]]|intros (-> & -> & _); auto]. }
        split.
        - rewrite map_app. apply nodup_app; [exact Nl|destruct (truthy (Str v)); [constructor; [intros []|constructor]|constructor]|].
          intros k Hk Hk'. apply in_map_iff in Hk as ([k1 x1] & E1 & Hk). apply Ll in Hk as (j & ks & v1 & _ & E2 & _).
          apply in_map_iff in Hk' as ([k3 x3] & E3 & Hk'). apply Hlast in Hk' as (E4 & _). cbn [fst] in *. congruence.
        - intros k x. rewrite in_app_iff, Hlast, Ll. cbn [oget]. split.
          + intros [(j & ks & v1 & Lj & -> & -> & Hv & Hn & G)|(-> & -> & Hv)].
            * exists v1. split; auto. split; auto. split; [constructor; [lia|exact Hn]|]. rewrite tget_branch, Nat2N.id. exact G.
            * exists v. split; auto. split; auto. split; [constructor|reflexivity].
          + intros (v1 & -> & Hv & Hn & G). destruct k as [|k0 ks].
            * right. cbn [tget] in G. subst v1. auto.
            * left. apply nibble_lt in Hn as [Hk0 Hks]. rewrite tget_branch in G. exists (N.to_nat k0), ks, v1.
              split; [lia|]. cbn [Nat.add]. rewrite N2Nat.id. auto. }
      split; [|exact F].
      intros key i Hk Hi. destruct key as [|k0 ks]; [destruct Hi|]. rewrite tpath_branch in Hi. apply nibble_lt in Hk as [Hk0 Hks].
      apply (C (N.to_nat k0) ks i); [lia|auto|auto].
  Qed.

  Lemma oto_dict_ok o fuel d : owf o -> obnd o -> 1 <= fuel ->
    (forall k, is_nibbles k -> oget o k <> [] -> length k < fuel) -> no_collision d -> ostored H d o ->
    exists l g, to_dict_f fuel d (oitem H o) = Ok (l, g) /\ olists o l /\
      (forall key i, is_nibbles key -> In i (orpath H o key) -> In i g) /\ Forall encodable g.
  Proof.
    destruct o as [t|]; cbn [owf obnd oget oitem ostored orpath]; intros W B F1 Hf N St; [apply to_dict_ok; auto|].
    destruct fuel as [|fuel]; [lia|]. exists [], []. split; [reflexivity|]. split; [|split; [intros key i _ []|constructor]].
    split; [constructor|]. intros k x. cbn [oget]. split; [intros []|]. intros (v' & _ & Hv' & _ & <-). congruence.
  Qed.

  (** ** The node under a prefix *)
  Lemma starts_shorter (a b c : nibbles) : starts_with c a = true -> starts_with c b = true -> length a <= length b -> starts_with b a = true.
  Proof.
    intros Ha Hb L. apply starts_with_spec in Ha as [r ->]. apply starts_with_spec in Hb as [q E].
    apply starts_with_spec. exists (skipn (length a) b). rewrite <- (firstn_skipn (length a) b) at 1. f_equal.
    assert (E2 : firstn (length a) (a ++ r) = firstn (length a) (b ++ q)) by (rewrite E; reflexivity).
    rewrite firstn_app, Nat.sub_diag, firstn_O, app_nil_r, firstn_all in E2.
    rewrite firstn_app in E2. replace (length a - length b) with 0 in E2 by lia. rewrite firstn_O, app_nil_r in E2. auto.
  Qed.

  Definition last_of (t : tnode) (p seen : nibbles) (o : option tnode) : Prop :=
    is_nibbles seen /\
    (forall k, is_nibbles k -> oget o k <> [] -> tget t (seen ++ k) = oget o k /\ starts_with (seen ++ k) p = true) /\
    (forall k, is_nibbles k -> starts_with k p = true -> tget t k <> [] -> exists k', k = seen ++ k' /\ oget o k' = tget t k).

  Lemma last_none t p seen : is_nibbles seen -> (forall k, is_nibbles k -> starts_with k p = true -> tget t k = []) -> last_of t p seen None.
  Proof. intros Hs Hn. split; [exact Hs|]. split; [intros k _ Q; destruct (Q eq_refl)|]. intros k Hk Sk G. destruct (G (Hn k Hk Sk)). Qed.

  Theorem last_ok t : wf t -> bnd t -> forall fuel d p, is_nibbles p -> length p < fuel -> no_collision d -> stored H d t ->
    exists seen g o, last_node_f fuel d (item_of H t) p = Ok (oitem H o, seen, g) /\
      owf o /\ obnd o /\ ostored H d o /\ last_of t p seen o /\
      (forall key i, is_nibbles key -> starts_with key p = true -> In i (tpath H t key) ->
         In i g \/ exists key', is_nibbles key' /\ In i (orpath H o key')) /\ Forall encodable g.
  Proof.
    induction t as [k v|k c IH|cs v IH] using tnode_ind'; intros W B fuel d p Hp Hf N St;
      (destruct fuel as [|fuel]; [lia|]); cbn [last_node_f]; rewrite (node_type_of H _ W); cbn [bind ntype];
      inversion W as [? ? Wk Wv|? ? Wk Wn Wb Wc|? ? Wl Wcs We]; subst;
      inversion St as [|? ? L1 S1|? ? L1 S1]; subst.
    - pose proof (key_nibbles_of k true (Str v) Wk (key_true_ne k)) as Kn.
      change (Lst [Str (pk (key_of k true)); Str v]) with (item_of H (TLeaf k v)) in Kn. rewrite Kn. cbn [bind].
      destruct (starts_with k p) eqn:Es.
      + exists [], [], (Some (TLeaf k v)). split; [reflexivity|]. split; [exact W|]. split; [exact B|]. split; [exact St|].
        split; [|split; [intros key i _ _ []|constructor]]. split; [constructor|]. split; [|intros q _ _ _; exists q; auto].
        intros q Hq. cbn [oget app]. rewrite tget_leaf. destruct (bytes_eqb q k) eqn:E; [|congruence].
        apply bytes_eqb_eq in E as ->. auto.
      + exists [], [], None. split; [reflexivity|]. split; [exact I|]. split; [exact I|]. split; [exact I|].
        split; [|split; [intros key i _ _ []|constructor]]. apply last_none; [constructor|].
        intros q Hq Sq. rewrite tget_leaf. destruct (bytes_eqb q k) eqn:E; [|reflexivity]. apply bytes_eqb_eq in E as ->. congruence.
    - pose proof (key_nibbles_of k false (ref H (item_of H c)) Wk) as Kn. cbn [key_of] in Kn. specialize (Kn Wn).
      change (Lst [Str (pk k); ref H (item_of H c)]) with (item_of H (TExt k c)) in Kn. rewrite Kn. cbn [bind].
      assert (Stop : forall key, starts_with key p = true -> starts_with k p = false -> length p <= length k -> starts_with key k = false).
      { intros key Sk Kp Lp. apply not_true_is_false. intros X. pose proof (starts_shorter p k key Sk X Lp). congruence. }
      destruct (length k <? length p) eqn:Lk.
      + apply Nat.ltb_lt in Lk. destruct (starts_with p k) eqn:Es.
        * apply starts_with_spec in Es as [r ->]. rewrite skipn_app_exact. apply is_nibbles_app in Hp as [_ Hr].
          pose proof (bnd_ext k c Wk B) as Bc. cbn [item_of items_of get_item nth_error bind]. rewrite decode_ref by auto. cbn [bind].
          destruct (IH Wc Bc fuel d r) as (seen & g & o & E & Wo & Bo & So & (Hs & A1 & A2) & C & F); auto.
          { rewrite app_length in Hf. destruct k; [congruence|cbn [length] in Hf; lia]. }
          rewrite E. cbn [bind]. exists (k ++ seen), (grabbed H c ++ g), o. split; [reflexivity|]. split; [exact Wo|]. split; [exact Bo|]. split; [exact So|].
          split; [|split; [|apply Forall_app; split; [apply grab_enc; auto|exact F]]].
          { split; [apply is_nibbles_app; auto|]. split.
            - intros q Hq Gq. destruct (A1 q Hq Gq) as [G1 G2]. rewrite <- app_assoc. rewrite tget_ext, starts_with_app, skipn_app_exact.
              split; [exact G1|]. rewrite starts_with_app_both. exact G2.
            - intros q Hq Sq Gq. rewrite tget_ext in Gq |- *. destruct (starts_with q k) eqn:Eq; [|congruence].
              apply starts_with_spec in Eq as [q' ->]. rewrite skipn_app_exact in *. rewrite starts_with_app_both in Sq.
              apply is_nibbles_app in Hq as [_ Hq']. destruct (A2 q' Hq' Sq Gq) as (k' & -> & G). exists k'. rewrite app_assoc. auto. }
          { intros key i Hk Sk Hi. cbn [tpath] in Hi. destruct (starts_with key k) eqn:Eq; [|destruct Hi].
            apply starts_with_spec in Eq as [q' ->]. rewrite skipn_app_exact in Hi. rewrite starts_with_app_both in Sk.
            apply is_nibbles_app in Hk as [_ Hq']. apply in_app_or in Hi as [Hi|Hi]; [left; apply in_or_app; auto|].
            destruct (C q' i Hq' Sk Hi) as [Hg|X]; [left; apply in_or_app; auto|right; exact X]. }
        * exists [], [], None. split; [reflexivity|]. split; [exact I|]. split; [exact I|]. split; [exact I|].
          assert (Q : forall key, starts_with key p = true -> starts_with key k = false).
          { intros key Sk. apply not_true_is_false. intros X. assert (starts_with p k = true); [|congruence].
            eapply starts_shorter; eauto. lia. }
          split; [apply last_none; [constructor|]; intros q Hq Sq; rewrite tget_ext, (Q q Sq); reflexivity|].
          split; [|constructor]. intros key i Hk Sk Hi. cbn [tpath] in Hi. rewrite (Q key Sk) in Hi. destruct Hi.
      + apply Nat.ltb_ge in Lk. destruct (starts_with k p) eqn:Es.
        * exists [], [], (Some (TExt k c)). split; [reflexivity|]. split; [exact W|]. split; [exact B|]. split; [exact St|].
          split; [|split; [intros key i Hk Sk Hi; right; exists key; auto|constructor]].
          split; [constructor|]. split; [|intros q _ _ _; exists q; auto].
          intros q Hq. cbn [oget app]. rewrite tget_ext. destruct (starts_with q k) eqn:Eq; [|congruence]. intros _. split; [reflexivity|].
          apply starts_with_spec in Es as [r ->]. apply starts_with_spec in Eq as [r' ->]. rewrite <- app_assoc. apply starts_with_app.
        * exists [], [], None. split; [reflexivity|]. split; [exact I|]. split; [exact I|]. split; [exact I|].
          split; [apply last_none; [constructor|]; intros q Hq Sq; rewrite tget_ext, (Stop q Sq eq_refl Lk); reflexivity|].
          split; [|constructor]. intros key i Hk Sk Hi. cbn [tpath] in Hi. rewrite (Stop key Sk eq_refl Lk) in Hi. destruct Hi.
    - destruct p as [|k0 ks].
      + exists [], [], (Some (TBranch cs v)). split; [reflexivity|]. split; [exact W|]. split; [exact B|]. split; [exact St|].
        split; [|split; [intros key i Hk Sk Hi; right; exists key; auto|constructor]].
        split; [constructor|]. split; [|intros q _ _ _; exists q; auto]. intros q Hq Gq. cbn [app]. split; [reflexivity|apply starts_with_nil].
      + apply nibble_lt in Hp as [Hk0 Hks]. cbn [length] in Hf. rewrite branch_child by auto. cbn [bind].
        assert (Hin : In (nth (N.to_nat k0) cs None) cs) by (apply nth_In; lia).
        assert (Cons : forall q, starts_with q (k0 :: ks) = true -> exists q', q = k0 :: q' /\ starts_with q' ks = true).
        { intros q Sq. apply starts_with_spec in Sq as [r ->]. exists (ks ++ r). split; [reflexivity|apply starts_with_app]. }
        destruct (nth (N.to_nat k0) cs None) as [c|] eqn:En; cbn [oref].
        * pose proof (bnd_child cs v c Wl B Hin) as Bc. pose proof (Wcs c Hin) as Wc.
          rewrite decode_ref by auto. cbn [bind].
          destruct (IH c Hin Wc Bc fuel d ks) as (seen & g & o & E & Wo & Bo & So & (Hs & A1 & A2) & C & F); auto; [lia|].
          rewrite E. cbn [bind]. exists (k0 :: seen), (grabbed H c ++ g), o. split; [reflexivity|]. split; [exact Wo|]. split; [exact Bo|]. split; [exact So|].
          split; [|split; [|apply Forall_app; split; [apply grab_enc; auto|exact F]]].
          { split; [constructor; [lia|exact Hs]|]. split.
            - intros q Hq Gq. destruct (A1 q Hq Gq) as [G1 G2]. cbn [app]. rewrite tget_branch, En. split; [exact G1|].
              change (k0 :: seen ++ q) with ([k0] ++ (seen ++ q)). change (k0 :: ks) with ([k0] ++ ks). rewrite starts_with_app_both. exact G2.
            - intros q Hq Sq Gq. destruct (Cons q Sq) as (q' & -> & Sq'). rewrite tget_branch, En in Gq |- *. cbn [oget] in Gq |- *.
              apply nibble_lt in Hq as [_ Hq']. destruct (A2 q' Hq' Sq' Gq) as (k' & -> & G). exists k'. auto. }
          { intros key i Hk Sk Hi. destruct (Cons key Sk) as (q' & -> & Sq'). rewrite tpath_branch, En in Hi. cbn [opath] in Hi.
            apply nibble_lt in Hk as [_ Hq']. apply in_app_or in Hi as [Hi|Hi]; [left; apply in_or_app; auto|].
            destruct (C q' i Hq' Sq' Hi) as [Hg|X]; [left; apply in_or_app; auto|right; exact X]. }
        * cbn [decode_to_node BLANK_NODE bind]. destruct fuel as [|fuel]; [lia|]. cbn [last_node_f get_node_type bind].
          exists [k0], [], None. split; [reflexivity|]. split; [exact I|]. split; [exact I|]. split; [exact I|].
          split; [apply last_none; [constructor; [lia|constructor]|]|].
          { intros q Hq Sq. destruct (Cons q Sq) as (q' & -> & _). rewrite tget_branch, En. reflexivity. }
          split; [|constructor]. intros key i Hk Sk Hi. destruct (Cons key Sk) as (q' & -> & _). rewrite tpath_branch, En in Hi. destruct Hi.
  Qed.
End Listing.
