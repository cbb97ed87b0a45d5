(** C101: the content of the state can be listed: as it is, at a root, and under a prefix with a proof.

    [H] and [usable] are as in State_Props.v. *)
From Coq Require Import List Arith NArith Bool Lia.
From Verif Require Import Base Rlp_Model Rlp_Props Trie_Model Trie_Spec Trie_Abs Trie_Proofs State_Proofs State_Props
  Listing_Model Listing_Spec Listing_Proofs.
Import ListNotations.

(** get_head_by_hash, then generate_state_proof_for_keys_with_prefix with that node and get_value *)
Definition prefix_proof_at (H : bytes -> bytes) (limit : nat) (t : trie) (root prefix : bytes) : res (list item * list (bytes * item)) :=
  bind (hash_to_node H t root) (fun node => prefix_proof limit t node prefix).

(** Keys are no longer than the limit allows *)
Definition short (limit : nat) (m : smap) : Prop := forall k v, m k = Some v -> 2 * length k < limit.

Lemma short_empty limit : short limit smap_empty.
Proof. discriminate. Qed.
Lemma short_past limit s i : Forall (short limit) (sp_past s) -> short limit (past s i).
Proof.
  intros F. unfold past. destruct (Nat.lt_ge_cases i (length (sp_past s))) as [L|L].
  - rewrite Forall_forall in F. apply F, nth_In, L.
  - rewrite nth_overflow by exact L. apply short_empty.
Qed.
Lemma short_do limit n s o : op_ok limit n o -> short limit (sp_head s) -> short limit (sp_committed s) -> Forall (short limit) (sp_past s) ->
  short limit (fst (spec_do s o)) /\ short limit (snd (spec_do s o)).
Proof.
  intros Ho Hh Hc Hp. induction o as [k v|k|[i|]|i| |m o IH]; cbn [spec_do fst snd op_ok] in *; auto using short_past.
  - split; [|exact Hc]. destruct Ho as (_ & L & _). intros k' v'. unfold smap_set. destruct (bytes_eqb k' k) eqn:E; [|apply Hh].
    apply bytes_eqb_eq in E as ->. intros _. exact L.
  - split; [|exact Hc]. intros k' v'. unfold smap_set. destruct (bytes_eqb k' k); [discriminate|apply Hh].
  - destruct Ho as [Ho _]. destruct (IH Ho) as [_ Q]. destruct (m =? 0); auto.
Qed.
Lemma keys_short limit ops : ops_ok limit 1 ops ->
  short limit (sp_head (spec_run ops)) /\ short limit (sp_committed (spec_run ops)) /\ Forall (short limit) (sp_past (spec_run ops)).
Proof.
  induction ops as [|o ops IH] using rev_ind; intros Ho.
  - split; [apply short_empty|]. split; [apply short_empty|]. constructor; [apply short_empty|constructor].
  - apply ops_ok_app in Ho as [Ho [Oo _]]. destruct (IH Ho) as (A & B & C). rewrite spec_run_app. unfold spec_step.
    destruct (short_do limit _ _ _ Oo A B C) as [D E]. destruct (spec_do (spec_run ops) o) as [h c]. cbn [fst snd sp_head sp_committed sp_past] in *.
    split; [exact D|]. split; [exact E|]. apply Forall_app. split; [exact C|]. constructor; [exact D|constructor].
Qed.

Lemma starts_bin p : forall k, is_bytes k -> starts_with (bin_to_nibbles k) (bin_to_nibbles p) = true <-> starting_with p k.
Proof.
  intros k Hk. rewrite starts_with_spec. split.
  - revert k Hk. induction p as [|b p IH]; intros k Hk [r E]; [exists k; reflexivity|].
    destruct k as [|c k]; [discriminate|]. cbn [bin_to_nibbles app] in E. injection E as E1 E2 E3.
    inversion Hk as [|? ? Hc Hk']; subst. destruct (IH k Hk' (ex_intro _ r E3)) as [q ->]. exists q. cbn [app]. f_equal.
    rewrite (N.div_mod c 16), (N.div_mod b 16) by discriminate. rewrite E1, E2. reflexivity.
  - intros [q ->]. clear Hk. exists (bin_to_nibbles q). induction p as [|b p IH]; cbn [app bin_to_nibbles]; [reflexivity|]. rewrite IH. reflexivity.
Qed.

Lemma to_bin_ok l : (forall k x, In (k, x) l -> exists b, is_bytes b /\ k = bin_to_nibbles b) ->
  exists l', to_bin l = Ok l' /\ l = map (fun x => (bin_to_nibbles (fst x), snd x)) l'.
Proof.
  induction l as [|[k x] l IH]; intros Hl; [exists []; auto|].
  destruct (Hl k x (or_introl eq_refl)) as (b & Hb & ->). destruct IH as (l' & E & ->); [intros k' x' Hin; eapply Hl; right; exact Hin|].
  exists ((b, x) :: l'). split; [|reflexivity]. unfold to_bin in *. cbn [mapM fst snd]. unfold key_to_bin at 1.
  assert (Od : Nat.odd (length (bin_to_nibbles b)) = false) by (rewrite bin_to_nibbles_length, Nat.odd_mul; reflexivity).
  rewrite Od, C16_bin_roundtrip by exact Hb. cbn [bind]. rewrite E. reflexivity.
Qed.

(** A list of nibbles as a list of keys *)
Lemma to_bin_lists which m l : NoDup (map fst l) ->
  (forall nk x, In (nk, x) l <-> exists k v, is_bytes k /\ nk = bin_to_nibbles k /\ which k /\ m k = Some v /\ x = Str (enc (Some v))) ->
  (forall k v, m k = Some v -> is_bytes k /\ (lenN v < 2 ^ 58)%N) ->
  exists l', to_bin l = Ok l' /\ lists which m raw l'.
Proof.
  intros Nd L V. destruct (to_bin_ok l) as (l' & E & El).
  { intros k x Hin. apply L in Hin as (b & _ & Hb & -> & _). eauto. }
  exists l'. split; [exact E|]. split.
  - rewrite El, map_map in Nd. cbn [fst] in Nd. rewrite <- (map_map fst bin_to_nibbles) in Nd.
    apply NoDup_map_inv in Nd. exact Nd.
  - intros k x. assert (In (k, x) l' <-> In (bin_to_nibbles k, x) l) as ->.
    { rewrite El, in_map_iff. split.
      - intros Hin. exists (k, x). auto.
      - intros ([k' x'] & Q & Hin). injection Q as Q1 Q2. cbn [fst snd] in *. apply C16_bin_injective in Q1. subst. exact Hin. }
    rewrite L. split.
    + intros (k' & v & _ & Q & W & Mv & ->). apply C16_bin_injective in Q. subst k'. split; [exact W|].
      exists v. split; [exact Mv|]. exists (enc (Some v)). split; [|reflexivity]. apply enc_encode, (V k v Mv).
    + intros (W & v & Mv & e & Ee & ->). exists k, v. split; [apply (V k v Mv)|]. split; [reflexivity|]. split; [exact W|].
      split; [exact Mv|]. f_equal. apply encode_rlp in Ee. exact Ee.
Qed.

Section Props.
  Variable H : bytes -> bytes.
  Hypothesis Hlen : forall x, length (H x) = 32.
  Variable limit : nat.

  Lemma rep_fuel o m : rep o m -> short limit m -> forall nk, is_nibbles nk -> oget o nk <> [] -> length nk < limit.
  Proof.
    intros (_ & _ & G & K & _) Sh nk Hn Gn. destruct (K nk Hn Gn) as (k & Hk & ->). rewrite G in Gn by exact Hk.
    destruct (m k) as [v|] eqn:E; [|destruct (Gn eq_refl)]. rewrite bin_to_nibbles_length. exact (Sh k v E).
  Qed.
  Lemma rep_in o m nk : rep o m -> is_nibbles nk -> oget o nk <> [] ->
    exists k v, is_bytes k /\ nk = bin_to_nibbles k /\ m k = Some v /\ oget o nk = enc (Some v).
  Proof.
    intros (_ & _ & G & K & _) Hn Gn. destruct (K nk Hn Gn) as (k & Hk & ->). rewrite G in Gn |- * by exact Hk.
    destruct (m k) as [v|] eqn:E; [|destruct (Gn eq_refl)]. exists k, v. auto.
  Qed.
  Lemma rep_out o m k v : rep o m -> m k = Some v -> is_bytes k /\ is_nibbles (bin_to_nibbles k) /\ oget o (bin_to_nibbles k) = enc (Some v).
  Proof.
    intros (_ & _ & G & _ & V) E. destruct (V k v E) as [Hk _]. split; [exact Hk|]. split; [apply bin_to_nibbles_nibbles; exact Hk|].
    rewrite G, E by exact Hk. reflexivity.
  Qed.

  Lemma listed o m d : rep o m -> short limit m -> 0 < limit -> collision_free H d -> ostored H d o ->
    exists l, bind (to_dict_f limit d (oitem H o)) (fun '(l, _) => to_bin l) = Ok l /\ lists every_key m raw l.
  Proof.
    intros R Sh Hl N St. pose proof R as (W & B & _ & _ & V).
    destruct (oto_dict_ok H Hlen o limit d W B Hl (rep_fuel o m R Sh) N St) as (l & g & E & [Nd L] & _ & _).
    rewrite E. cbn [bind]. apply to_bin_lists; auto. intros nk x. rewrite L. split.
    - intros (v & -> & Hv & Hn & G). rewrite <- G in Hv. destruct (rep_in o m nk R Hn Hv) as (k & w & Hk & -> & Mk & Ew).
      exists k, w. split; [exact Hk|]. split; [reflexivity|]. split; [exact I|]. split; [exact Mk|]. congruence.
    - intros (k & v & Hk & -> & _ & Mk & ->). destruct (rep_out o m k v R Mk) as (_ & Hn & G).
      exists (enc (Some v)). split; [reflexivity|]. split; [apply enc_ne|]. auto.
  Qed.

  Lemma setting ops : usable H limit ops -> Inv H (state_after H limit ops) (spec_run ops) (r_roots (fst (run H limit ops))) /\
    collision_free H (t_kv (state_after H limit ops)) /\
    short limit (sp_head (spec_run ops)) /\ Forall (short limit) (sp_past (spec_run ops)).
  Proof.
    intros (Ho & N & Hx). destruct (run_inv H Hlen limit ops Ho N Hx) as (I & Inc & _). split; [exact I|].
    split; [eapply nocoll_incl; eauto|]. destruct (keys_short limit ops Ho) as (A & _ & B). auto.
  Qed.

  Lemma head_list ops : usable H limit ops -> 0 < limit ->
    exists l, to_dict limit (state_after H limit ops) (t_root (state_after H limit ops)) = Ok l /\
      lists every_key (sp_head (spec_run ops)) raw l.
  Proof.
    intros U Hl. destruct (setting ops U) as (I & N & Sh & _). destruct I as [_ (o & R & T & G) _ _].
    unfold to_dict. cbv zeta. destruct (truthy _); rewrite T; apply listed; auto; eapply good_stored; eauto.
  Qed.

  (** [as_dict] holds each key of the current map once, with its value. *)
  Theorem C101_listing ops : usable H limit ops -> 0 < limit ->
    exists l, s_as_dict limit (state_after H limit ops) = Ok l /\ lists every_key (sp_head (spec_run ops)) plain l.
  Proof.
    intros U Hl. destruct (head_list ops U Hl) as (l & E & Nd & L).
    assert (Sm : forall k v, sp_head (spec_run ops) k = Some v -> (lenN v < 2 ^ 58)%N).
    { destruct (setting ops U) as ([_ (o & (_ & _ & _ & _ & V) & _) _ _] & _). intros k v Mv. apply (V k v Mv). }
    unfold s_as_dict. rewrite E. cbn [bind]. clear E.
    set (m := sp_head (spec_run ops)) in *. clearbody m.
    assert (D : forall k x, In (k, x) l -> exists v e, m k = Some v /\ x = Str e /\ get_decoded e = Ok (Str v)).
    { intros k x Hin. apply L in Hin as (_ & v & Mv & e & Ee & ->). exists v, e. split; [exact Mv|]. split; [reflexivity|].
      unfold get_decoded. rewrite (C15_roundtrip _ _ Ee). reflexivity. }
    assert (Q : exists l', mapM (fun x => bind match snd x with Str b => get_decoded b | Lst _ => Err TypeError end (fun v => Ok (fst x, v))) l = Ok l' /\
       map fst l' = map fst l /\ forall k x, In (k, x) l' -> exists v, m k = Some v /\ x = Str v).
    { clear L Nd. induction l as [|[k x] l IH]; [exists []; cbn; split; [reflexivity|split; [reflexivity|intros k x []]]|].
      destruct (D k x (or_introl eq_refl)) as (v & e & Mv & -> & Dv).
      destruct IH as (l' & E & M & F); [intros k' x' Hin; apply D; right; exact Hin|].
      exists ((k, Str v) :: l'). cbn [mapM fst snd]. rewrite Dv. cbn [bind]. rewrite E. cbn [bind map fst]. split; [reflexivity|].
      split; [congruence|]. intros k' x' [Q|Hin]; [injection Q as <- <-; eauto|auto]. }
    destruct Q as (l' & E & M & F). exists l'. split; [exact E|]. split; [rewrite M; exact Nd|].
    intros k x. split.
    - intros Hin. destruct (F k x Hin) as (v & Mv & ->). split; [exact I|]. exists v. split; [exact Mv|reflexivity].
    - intros (_ & v & Mv & ->). assert (Hk : In k (map fst l')).
      { rewrite M. apply in_map_iff. exists (k, Str (enc (Some v))). split; [reflexivity|]. apply L. split; [exact I|].
        exists v. split; [exact Mv|]. exists (enc (Some v)). split; [apply enc_encode, (Sm k v Mv)|reflexivity]. }
      apply in_map_iff in Hk as ([k' x'] & Ek & Hin). cbn [fst] in Ek. subst k'. destruct (F k x' Hin) as (w & Mw & ->).
      assert (w = v) as -> by congruence. exact Hin.
  Qed.

  Lemma past_known ops i : usable H limit ops -> i <= length ops ->
    exists o, rep o (past (spec_run ops) i) /\ short limit (past (spec_run ops) i) /\
      ostored H (t_kv (state_after H limit ops)) o /\ collision_free H (t_kv (state_after H limit ops)) /\
      hash_to_node H (state_after H limit ops) (root_after H limit ops i) = Ok (oitem H o).
  Proof.
    intros U Hi. destruct (setting ops U) as (I & N & _ & Sh). destruct I as [_ _ _ P].
    destruct (past_nth _ _ _ _ i P) as (o & R & G); [rewrite spec_past_length; lia|].
    exists o. split; [exact R|]. split; [apply short_past, Sh|]. split; [eapply good_stored; eauto|]. split; [exact N|].
    apply hash_node; auto; apply R.
  Qed.

  (** The leaves at a root the client read hold each key of the map of then, with its encoded value; unless that map was empty. *)
  Theorem C101_leaves_partial ops i : usable H limit ops -> 0 < limit -> i <= length ops ->
    (exists k v, past (spec_run ops) i k = Some v) ->
    exists l, s_all_leaves H limit (state_after H limit ops) (root_after H limit ops i) = Ok l /\
      lists every_key (past (spec_run ops) i) raw l.
  Proof.
    intros U Hl Hi (k & v & Mk). destruct (past_known ops i U Hi) as (o & R & Sh & St & N & Eh).
    unfold s_all_leaves. rewrite Eh. cbn [bind]. unfold to_dict. cbv zeta.
    assert (T : truthy (oitem H o) = true).
    { destruct (rep_out o _ k v R Mk) as (_ & _ & G). destruct o as [t|]; [|destruct (enc_ne v); symmetry; exact G].
      destruct t as [? ?|? ?|cs w]; try reflexivity. cbn [oitem]. rewrite item_branch. destruct cs; reflexivity. }
    rewrite T. apply listed; auto.
  Qed.

  (** For the root of the empty map the leaves of the current map are given instead. *)
  Theorem C101_leaves_refuted ops i : usable H limit ops -> 0 < limit -> i <= length ops ->
    (forall k, past (spec_run ops) i k = None) ->
    exists l, s_all_leaves H limit (state_after H limit ops) (root_after H limit ops i) = Ok l /\
      lists every_key (sp_head (spec_run ops)) raw l.
  Proof.
    intros U Hl Hi Em. destruct (past_known ops i U Hi) as (o & R & _ & _ & _ & Eh).
    destruct (head_list ops U Hl) as (l & E & L). exists l. split; [|exact L].
    unfold s_all_leaves. rewrite Eh. cbn [bind].
    assert (o = None) as ->.
    { destruct o as [t|]; [|reflexivity]. destruct R as (W & _ & G & K & _). destruct (wf_nonempty t W) as (nk & Hn & Gn).
      destruct (K nk Hn Gn) as (k & Hk & ->). cbn [oget] in G. rewrite G, Em in Gn by exact Hk. destruct (Gn eq_refl). }
    rewrite <- E. unfold to_dict. cbv zeta. cbn [oitem truthy BLANK_NODE]. destruct (truthy (t_root _)); reflexivity.
  Qed.

  (** ** Prefixes *)
  Lemma prefix_ok o m t p : rep o m -> short limit m -> collision_free H (t_kv t) -> ostored H (t_kv t) o ->
    is_bytes p -> 2 * length p < limit ->
    exists nodes kvs, prefix_proof limit t (oitem H o) p = Ok (nodes, kvs) /\ lists (starting_with p) m raw kvs /\
      Forall encodable nodes /\
      forall k, is_bytes k -> starting_with p k -> incl (proof_nodes H o k) nodes.
  Proof.
    intros R Sh N St Hp Hl. pose proof R as (W & B & _ & _ & V). pose proof (bin_to_nibbles_nibbles p Hp) as Hnp.
    assert (Q : exists seen g o', last_node_f limit (t_kv t) (oitem H o) (bin_to_nibbles p) = Ok (oitem H o', seen, g) /\
      owf o' /\ obnd o' /\ ostored H (t_kv t) o' /\ is_nibbles seen /\
      (forall k, is_nibbles k -> oget o' k <> [] -> oget o (seen ++ k) = oget o' k /\ starts_with (seen ++ k) (bin_to_nibbles p) = true) /\
      (forall k, is_nibbles k -> starts_with k (bin_to_nibbles p) = true -> oget o k <> [] -> exists k', k = seen ++ k' /\ oget o' k' = oget o k) /\
      (forall key i, is_nibbles key -> starts_with key (bin_to_nibbles p) = true -> In i (orpath H o key) ->
         In i g \/ exists key', is_nibbles key' /\ In i (orpath H o' key')) /\ Forall encodable g).
    { destruct o as [x|]; cbn [owf obnd ostored oitem oget orpath] in *.
      - destruct (last_ok H Hlen x W B limit (t_kv t) (bin_to_nibbles p)) as (seen & g & o' & E & Wo & Bo & So & (A1 & A2 & A3) & C & F); auto.
        { rewrite bin_to_nibbles_length. exact Hl. }
        exists seen, g, o'. auto 10.
      - destruct limit as [|f]; [lia|]. exists [], [], None. split; [reflexivity|]. split; [exact I|]. split; [exact I|]. split; [exact I|].
        split; [constructor|]. split; [intros k _ Q; destruct (Q eq_refl)|]. split; [intros k _ _ Q; destruct (Q eq_refl)|].
        split; [intros key i _ _ []|constructor]. }
    destruct Q as (seen & g & o' & E & Wo & Bo & So & Hs & A1 & A2 & C & F).
    destruct (oto_dict_ok H Hlen o' limit (t_kv t) Wo Bo) as (l & g' & E' & [Nd L] & C' & F'); auto.
    { lia. }
    { intros k Hk Gk. destruct (A1 k Hk Gk) as [G _]. rewrite <- G in Gk.
      pose proof (rep_fuel o m R Sh (seen ++ k) (proj2 (is_nibbles_app _ _) (conj Hs Hk)) Gk) as Q. rewrite app_length in Q. lia. }
    destruct (to_bin_lists (starting_with p) m (under seen l)) as (kvs & Ek & Lk); [apply nodup_under; exact Nd| |exact V|].
    { intros nk x. rewrite in_under. split.
      - intros (k' & -> & Hin). apply L in Hin as (v & -> & Hv & Hn & G). rewrite <- G in Hv. destruct (A1 k' Hn Hv) as [G1 S1].
        rewrite <- G1 in Hv. destruct (rep_in o m (seen ++ k') R (proj2 (is_nibbles_app _ _) (conj Hs Hn)) Hv) as (k & w & Hk & Q & Mk & Ew).
        exists k, w. split; [exact Hk|]. split; [exact Q|]. split; [apply starts_bin; [exact Hk|]; rewrite <- Q; exact S1|].
        split; [exact Mk|]. congruence.
      - intros (k & v & Hk & -> & Sk & Mk & ->). destruct (rep_out o m k v R Mk) as (_ & Hn & G).
        destruct (A2 (bin_to_nibbles k) Hn) as (k' & Q & G'); [apply starts_bin; auto|rewrite G; apply enc_ne|].
        exists k'. split; [exact Q|]. apply L. exists (enc (Some v)). split; [reflexivity|]. split; [apply enc_ne|].
        split; [|congruence]. rewrite Q in Hn. apply is_nibbles_app in Hn. apply Hn. }
    exists ((g ++ g') ++ [oitem H o]), kvs. unfold prefix_proof. rewrite E. cbn [bind]. rewrite E'. cbn [bind]. rewrite Ek. cbn [bind].
    split; [reflexivity|]. split; [exact Lk|]. split.
    - apply Forall_app. split; [apply Forall_app; auto|]. constructor; [|constructor].
      destruct o as [x|]; [apply node_encode; auto|reflexivity].
    - intros k Hk Sk i Hi. unfold proof_nodes in Hi. apply in_app_or in Hi as [Hi|Hi]; apply in_or_app; [left|right; exact Hi].
      apply in_or_app. destruct (C (bin_to_nibbles k) i (bin_to_nibbles_nibbles k Hk)) as [Q|(key' & Hk' & Q)]; auto.
      { apply starts_bin; auto. }
      right. eapply C'; eauto.
  Qed.

  (** The values under a prefix in the current map *)
  Theorem C101_prefix_head ops p : usable H limit ops -> key_ok limit p ->
    exists nodes kvs, prefix_proof limit (state_after H limit ops) (t_root (state_after H limit ops)) p = Ok (nodes, kvs) /\
      lists (starting_with p) (sp_head (spec_run ops)) raw kvs.
  Proof.
    intros U [Hp Hl]. destruct (setting ops U) as (I & N & Sh & _). destruct I as [_ (o & R & T & G) _ _].
    destruct (prefix_ok o _ (state_after H limit ops) p R Sh N (good_stored _ _ _ _ G) Hp Hl) as (nodes & kvs & E & L & _).
    exists nodes, kvs. rewrite T. auto.
  Qed.

  (** At a root the client read: the values, and one proof for all of them and for the absence of any other key under
      the prefix. *)
  Theorem C101_prefix_proof ops i p : usable H limit ops -> i <= length ops -> key_ok limit p ->
    exists nodes kvs,
      prefix_proof_at H limit (state_after H limit ops) (root_after H limit ops i) p = Ok (nodes, kvs) /\
      lists (starting_with p) (past (spec_run ops) i) raw kvs /\
      Forall (fun n => rlp_encode n = Ok (rlp n)) nodes /\
      forall nodes', incl nodes nodes' -> Forall (fun n => rlp_encode n = Ok (rlp n)) nodes' -> collision_free H (hashed H nodes') ->
        (forall k, key_ok limit k -> starting_with p k ->
           verify_state_proof H limit (root_after H limit ops i) k (past (spec_run ops) i k) nodes' = Ok true) /\
        (forall claims, claims <> [] ->
           (forall k v, In (k, v) claims -> key_ok limit k /\ starting_with p k /\ v = past (spec_run ops) i k) ->
           verify_state_proof_multi H limit (root_after H limit ops i) claims nodes' = Ok true).
  Proof.
    intros U Hi [Hp Hl]. destruct (past_known ops i U Hi) as (o & R & Sh & St & N & Eh).
    destruct (prefix_ok o _ (state_after H limit ops) p R Sh N St Hp Hl) as (nodes & kvs & E & L & F & Inc).
    exists nodes, kvs. split; [unfold prefix_proof_at; rewrite Eh; exact E|]. split; [exact L|]. split; [exact F|].
    intros nodes' Inc' F' N'.
    assert (Pr : forall k, key_ok limit k -> starting_with p k -> exists ns v,
       proof_at H limit (state_after H limit ops) (root_after H limit ops i) k = Ok (ns, v) /\ incl ns nodes').
    { intros k [Hk Lk] Sk. exists (proof_nodes H o k), (Some (Str (enc (past (spec_run ops) i k)))).
      split; [|eapply incl_tran; [apply Inc; auto|exact Inc']]. unfold proof_at. rewrite Eh. cbn [bind]. unfold generate_state_proof.
      rewrite (read_ok H Hlen limit o _ (t_kv (state_after H limit ops)) k any_node R St N Hk Lk) by reflexivity. reflexivity. }
    split.
    - intros k Kk Sk. destruct (C12_proofs_verify H Hlen limit ops i k U Kk Hi) as (ns & v & Ep & _ & _ & Q).
      apply Q; auto. destruct (Pr k Kk Sk) as (ns' & v' & Ep' & Inc2). rewrite Ep in Ep'. injection Ep' as -> ->. exact Inc2.
    - intros claims Hne Hc. apply (C12_multi_proofs_verify H Hlen limit ops i claims U Hi); auto.
      + intros k v Hin. destruct (Hc k v Hin) as (A & _ & B). auto.
      + intros k v Hin. destruct (Hc k v Hin) as (A & B & _). apply Pr; auto.
  Qed.

  (** What verifies with a proof verifies also with keys left out: that a listing is complete cannot be verified. *)
  Theorem C101_omission_refuted root claims claims' nodes :
    verify_state_proof_multi H limit root claims nodes = Ok true -> incl claims' claims ->
    verify_state_proof_multi H limit root claims' nodes = Ok true.
  Proof.
    unfold verify_state_proof_multi. set (f := fun '(k, v) => _).
    destruct (mapM f claims) as [l|] eqn:Em; cbn [bind]; [|discriminate]. intros E Inc.
    assert (Q : exists l', mapM f claims' = Ok l' /\ incl l' l).
    { assert (One : forall c, In c claims -> exists e, f c = Ok e /\ In e l).
      { clear E Inc. revert l Em. induction claims as [|c0 cl IH]; intros l Em c Hin; [destruct Hin|]. cbn [mapM] in Em.
        destruct (f c0) as [e0|] eqn:E0; cbn [bind] in Em; [|discriminate]. destruct (mapM f cl) as [l0|] eqn:El; cbn [bind] in Em; [|discriminate].
        injection Em as <-. destruct Hin as [<-|Hin]; [exists e0; split; [exact E0|left; reflexivity]|].
        destruct (IH l0 eq_refl c Hin) as (e & Ee & Ie). exists e. split; [exact Ee|right; exact Ie]. }
      clear E Em. induction claims' as [|c cl IH]; [exists []; split; [reflexivity|intros x []]|].
      destruct (One c (Inc c (or_introl eq_refl))) as (e & Ee & Ie). destruct IH as (l' & El & Il); [intros x Hx; apply Inc; right; exact Hx|].
      exists (e :: l'). cbn [mapM]. rewrite Ee. cbn [bind]. rewrite El. split; [reflexivity|]. intros x [<-|Hx]; auto. }
    destruct Q as (l' & -> & Il). cbn [bind]. unfold verify_spv_proof_multi in *.
    destruct (proof_store H nodes []) as [d|]; cbn [bind] in *; [|discriminate].
    destruct (root_node_of H (in_proof nodes) d root) as [r|]; cbn [bind] in *; [|discriminate]. injection E as E. f_equal.
    assert (One : forall k e, In (k, e) l' -> exists v g, get_f (in_proof nodes) limit d r (bin_to_nibbles k) = Ok (v, g) /\ same_value v e = true).
    { intros k e Hin. eapply check_all_inv; eauto. }
    clear Il. induction l' as [|[k e] l' IH]; [reflexivity|]. cbn [check_all].
    destruct (One k e (or_introl eq_refl)) as (v & g & Eg & Es). rewrite Eg, Es. apply IH. intros k' e' Hin. apply One. right. exact Hin.
  Qed.
End Props.

(** ** Examples, with the operations and the toy hash of State_Props.v *)
Definition ex_state : trie := state_after toy 100 ex_ops.
Definition values_of (x : res (list item * list (bytes * item))) : list (bytes * item) := match x with Ok (_, l) => l | Err _ => [] end.
Definition proof_of_prefix (x : res (list item * list (bytes * item))) : list item := match x with Ok (n, _) => n | Err _ => [] end.

Example C101_ex :
  s_as_dict 100 ex_state = Ok [([1; 35; 7]%N, Str [3]%N); ([1; 35]%N, Str (long 1)); ([1; 36]%N, Str [2]%N)] /\
  (exists l, s_as_dict 100 ex_state = Ok l /\ lists every_key (sp_head (spec_run ex_ops)) plain l).
Proof. split; [vm_compute; reflexivity|]. apply (C101_listing toy toy_length 100 ex_ops usable_ex). lia. Qed.

(** The leaves after the first operation, and those at the first root, of the empty map: the current ones *)
Example C101_leaves_ex :
  s_all_leaves toy 100 ex_state (root_after toy 100 ex_ops 1) = Ok [([1; 35]%N, Str (rlp (Lst [Str (long 1)])))] /\
  (exists k v, past (spec_run ex_ops) 1 k = Some v) /\
  (forall k, past (spec_run ex_ops) 0 k = None) /\
  (exists l, s_all_leaves toy 100 ex_state (root_after toy 100 ex_ops 0) = Ok l /\ length l = 3).
Proof.
  split; [vm_compute; reflexivity|]. split; [exists [1; 35]%N, (long 1); vm_compute; reflexivity|].
  split; [intros k; reflexivity|]. eexists. split; vm_compute; reflexivity.
Qed.

(** Under the prefix [1; 35], at the root after all operations; a listing with one key left out is accepted too. *)
Example C101_prefix_ex :
  let root := root_after toy 100 ex_ops 9 in
  let x := prefix_proof_at toy 100 ex_state root [1; 35]%N in
  map fst (values_of x) = [[1; 35; 7]; [1; 35]]%N /\
  key_ok 100 [1; 35]%N /\ collision_free toy (hashed toy (proof_of_prefix x)) /\
  verify_state_proof_multi toy 100 root [([1; 35], Some (long 1)); ([1; 35; 7], Some [3]); ([1; 35; 8], None)]%N (proof_of_prefix x) = Ok true /\
  verify_state_proof_multi toy 100 root [([1; 35; 7], Some [3])]%N (proof_of_prefix x) = Ok true /\
  verify_state_proof_multi toy 100 root [([1; 35; 7], None)]%N (proof_of_prefix x) = Ok false.
Proof.
  cbv zeta. split; [vm_compute; reflexivity|]. split; [split; [repeat constructor; lia|cbn; lia]|].
  split; [apply collision_freeb_ok; vm_compute; reflexivity|]. repeat split; vm_compute; reflexivity.
Qed.

Print Assumptions C101_listing.
Print Assumptions C101_leaves_partial.
Print Assumptions C101_leaves_refuted.
Print Assumptions C101_prefix_head.
Print Assumptions C101_prefix_proof.
Print Assumptions C101_omission_refuted.
