(** C10-C14: the state is a map with a committed copy; its root stands for its content; its proofs
    are complete and sound.

    [H] is sha3_256, about which only the length of its results is assumed; that no two different
    strings that were ever put (or shown in a proof) have one hash is a hypothesis of each theorem. *)
From Coq Require Import List Arith NArith Bool Lia.
From Verif Require Import Base Rlp_Model Rlp_Props Trie_Model Trie_Spec Trie_Abs Trie_Proofs State_Proofs.
Import ListNotations.

(** A run within the limits of the code, without hash collisions, and in which no root happens to
    consist of 32 ASCII hex digits (see [C14_hex_root_refuted]). *)
Definition usable (H : bytes -> bytes) (limit : nat) (ops : list op) : Prop :=
  ops_ok limit 1 ops /\
  collision_free H (r_puts (fst (run H limit ops))) /\
  (forall h, In h (r_roots (fst (run H limit ops))) -> isHex h = false).

Definition key_ok (limit : nat) (k : bytes) : Prop := Forall (fun b => (b < 256)%N) k /\ 2 * length k < limit.

(** The state after the operations, its roots and the results of the operations *)
Definition state_after H limit ops : trie := r_trie (fst (run H limit ops)).
Definition root_after H limit ops (i : nat) : bytes := root_at (fst (run H limit ops)) i.
Definition results H limit ops : list (res unit) := snd (run H limit ops).

(** Proof nodes as key-value pairs under their hashes *)
Definition hashed (H : bytes -> bytes) (nodes : list item) : kv := map (fun n => (H (rlp n), rlp n)) nodes.
(** Proof of a key at a root: get_head_by_hash, then generate_state_proof with that node *)
Definition proof_at (H : bytes -> bytes) (limit : nat) (t : trie) (root key : bytes) : res (list item * option item) :=
  bind (hash_to_node H t root) (fun node => generate_state_proof limit t node key).

Section Props.
  Variable H : bytes -> bytes.
  Hypothesis Hlen : forall x, length (H x) = 32.
  Variable limit : nat.

  Lemma read_past ops m h k : usable H limit ops -> root_known H (t_kv (state_after H limit ops)) h m -> key_ok limit k ->
    s_get_for_root_hash H limit (state_after H limit ops) h k = seen (m k).
  Proof.
    intros (Ho & N & Hx) (o & R & G) [Hk Hl]. destruct (run_inv H Hlen limit ops Ho N Hx) as (I & Hi & _).
    fold (state_after H limit ops) in *. set (t := state_after H limit ops) in *. clearbody t.
    assert (Nt : collision_free H (t_kv t)) by (eapply nocoll_incl; eauto).
    pose proof R as (W & B & _ & _ & V).
    unfold s_get_for_root_hash. rewrite (hash_node H Hlen t h o W B Nt G). cbn [bind].
    unfold t_get. rewrite (read_ok H Hlen limit o m (t_kv t) k any_node R (good_stored _ _ _ _ G) Nt Hk Hl) by reflexivity.
    cbn [bind]. apply decode_ok; auto. intros x Ex. apply (V k x Ex).
  Qed.

  (** Sets, removals, reverts, commits, restarts and crashes succeed, and a read gives what the map holds. *)
  Theorem C10_state_is_a_map ops k : usable H limit ops -> key_ok limit k ->
    results H limit ops = repeat (Ok tt) (length ops) /\
    s_get H limit (state_after H limit ops) k false = seen (sp_head (spec_run ops) k).
  Proof.
    intros U [Hk Hl]. pose proof U as (Ho & N & Hx). destruct (run_inv H Hlen limit ops Ho N Hx) as (I & Hi & X).
    split; [exact X|]. destruct I as [_ (o & R & T & G) _ _].
    assert (Nt : collision_free H (t_kv (state_after H limit ops))) by (eapply nocoll_incl; eauto).
    pose proof R as (W & B & _ & _ & V).
    unfold s_get. cbn [bind]. unfold state_after in *. rewrite T. unfold t_get.
    rewrite (read_ok H Hlen limit o (sp_head (spec_run ops)) _ k any_node R (good_stored _ _ _ _ G) Nt Hk Hl) by reflexivity.
    cbn [bind]. apply decode_ok; auto. intros x Ex. apply (V k x Ex).
  Qed.

  (** Committed reads give the committed map. *)
  Theorem C14_committed_reads ops k : usable H limit ops -> key_ok limit k ->
    s_get H limit (state_after H limit ops) k true = seen (sp_committed (spec_run ops) k).
  Proof.
    intros U K. pose proof U as (Ho & N & Hx). destruct (run_inv H Hlen limit ops Ho N Hx) as (I & Hi & X).
    destruct I as [_ _ (h & Eh & Kh) _]. rewrite <- (read_past ops _ h k U Kh K).
    unfold s_get, s_get_for_root_hash, committed_hash. unfold state_after in *. rewrite Eh. reflexivity.
  Qed.

  (** Every root the client ever read stays readable, and gives the map it stood for. *)
  Theorem C14_past_roots ops i k : usable H limit ops -> key_ok limit k -> i <= length ops ->
    s_get_for_root_hash H limit (state_after H limit ops) (root_after H limit ops i) k = seen (past (spec_run ops) i k).
  Proof.
    intros U K Hi. pose proof U as (Ho & N & Hx). destruct (run_inv H Hlen limit ops Ho N Hx) as (I & _ & _).
    apply read_past; auto. destruct I as [_ _ _ P]. apply (past_nth _ _ _ _ i P). rewrite spec_past_length. lia.
  Qed.

  Lemma usable_prefix ops ops' : usable H limit (ops ++ ops') -> usable H limit ops.
  Proof.
    induction ops' as [|o ops' IH] using rev_ind; [rewrite app_nil_r; auto|].
    intros U. apply IH. rewrite app_assoc in U. set (l := ops ++ ops') in *. clearbody l.
    destruct U as (Ho & N & Hx). apply ops_ok_app in Ho as [Ho _].
    rewrite run_app in N, Hx. unfold step in N, Hx. destruct (run H limit l) as [r xs] eqn:E.
    destruct (run_op H limit r o) as [[t x] new]. cbn [fst r_puts r_roots] in *.
    split; auto. rewrite E. cbn [fst]. split.
    - eapply nocoll_incl; [|exact N]. apply incl_appr, incl_refl.
    - intros h Hh. apply Hx. apply in_or_app. auto.
  Qed.

  (** Committed reads do not see sets, removals and reverts. *)
  Definition uncommitted (o : op) : Prop := match o with OSet _ _ | ORemove _ | ORevert _ => True | _ => False end.
  Theorem C14_isolation ops ops' k : usable H limit (ops ++ ops') -> key_ok limit k -> Forall uncommitted ops' ->
    s_get H limit (state_after H limit (ops ++ ops')) k true = s_get H limit (state_after H limit ops) k true.
  Proof.
    intros U K F. rewrite !C14_committed_reads; auto; [|eapply usable_prefix; eauto]. f_equal.
    clear U. induction ops' as [|o ops' IH] using rev_ind; [rewrite app_nil_r; auto|].
    apply Forall_app in F as [F Fo]. inversion Fo as [|? ? Fo1 Fo2]; subst. rewrite app_assoc, spec_run_app, <- (IH F).
    destruct o; cbn in Fo1; try contradiction; reflexivity.
  Qed.

  (** After a restart, the head is what was committed. *)
  Theorem C14_restart ops k : usable H limit (ops ++ [ORestart]) -> key_ok limit k ->
    s_get H limit (state_after H limit (ops ++ [ORestart])) k false = s_get H limit (state_after H limit ops) k true.
  Proof.
    intros U K. destruct (C10_state_is_a_map _ k U K) as [_ ->].
    rewrite C14_committed_reads; auto; [|eapply usable_prefix; eauto]. rewrite spec_run_app. reflexivity.
  Qed.

  (** A commit makes the head the committed state; a crash that loses the put of the committed root
      leaves the committed state as it was, and the head becomes the committed state. *)
  Theorem C14_commit ops k : usable H limit (ops ++ [OCommit None]) -> key_ok limit k ->
    s_get H limit (state_after H limit (ops ++ [OCommit None])) k true = s_get H limit (state_after H limit ops) k false.
  Proof.
    intros U K. rewrite C14_committed_reads; auto.
    destruct (C10_state_is_a_map _ k (usable_prefix _ _ U) K) as [_ ->]. rewrite spec_run_app. reflexivity.
  Qed.
  Theorem C14_crash ops n o k : usable H limit (ops ++ [OCrash n o]) -> 0 < n -> key_ok limit k ->
    s_get H limit (state_after H limit (ops ++ [OCrash n o])) k true = s_get H limit (state_after H limit ops) k true /\
    s_get H limit (state_after H limit (ops ++ [OCrash n o])) k false = s_get H limit (state_after H limit ops) k true.
  Proof.
    intros U Hn K. destruct (C10_state_is_a_map _ k U K) as [_ ->].
    rewrite !C14_committed_reads; auto; [|eapply usable_prefix; eauto].
    rewrite spec_run_app. unfold spec_step. cbn [spec_do]. destruct n; [lia|]. split; reflexivity.
  Qed.

  (** ** C11: the root and the content determine each other *)
  Lemma head_root ops : usable H limit ops ->
    exists o, rep o (sp_head (spec_run ops)) /\ good H (t_kv (state_after H limit ops)) (root_hash_of H o) o /\
      get_root_hash H (state_after H limit ops) = Ok (root_hash_of H o).
  Proof.
    intros (Ho & N & Hx). destruct (run_inv H Hlen limit ops Ho N Hx) as (I & Hi & X). destruct I as [_ (o & R & T & G) _ _].
    exists o. split; auto. split; auto. apply root_hash_ok; auto; apply R.
  Qed.

  Lemma rep_canonical o1 o2 m1 m2 : rep o1 m1 -> rep o2 m2 -> (forall k, m1 k = m2 k) -> o1 = o2.
  Proof.
    intros (W1 & B1 & G1 & K1 & V1) (W2 & B2 & G2 & K2 & V2) E. apply ocanonical; auto.
    intros nk Hn.
    assert (Any : forall o m, (forall k, is_bytes k -> oget o (bin_to_nibbles k) = enc (m k)) ->
       (oget o nk <> [] -> exists k, is_bytes k /\ nk = bin_to_nibbles k) ->
       oget o nk = [] \/ exists k, is_bytes k /\ nk = bin_to_nibbles k).
    { intros o m _ Q. destruct (oget o nk) eqn:Eo; auto. right. apply Q. discriminate. }
    destruct (Any o1 m1 G1 (K1 nk Hn)) as [Z1|(k & Hk & ->)].
    - destruct (Any o2 m2 G2 (K2 nk Hn)) as [Z2|(k & Hk & ->)]; [congruence|]. rewrite G1, G2, E by auto. reflexivity.
    - rewrite G1, G2, E by auto. reflexivity.
  Qed.

  (** The same content gives the same root, whatever operations led to it. *)
  Theorem C11_root_of_content ops1 ops2 : usable H limit ops1 -> usable H limit ops2 ->
    (forall k, sp_head (spec_run ops1) k = sp_head (spec_run ops2) k) ->
    exists h, get_root_hash H (state_after H limit ops1) = Ok h /\ get_root_hash H (state_after H limit ops2) = Ok h.
  Proof.
    intros U1 U2 E. destruct (head_root ops1 U1) as (o1 & R1 & _ & E1). destruct (head_root ops2 U2) as (o2 & R2 & _ & E2).
    pose proof (rep_canonical _ _ _ _ R1 R2 E) as ->. eauto.
  Qed.

  Lemma roots_equal d1 d2 h o1 o2 m1 m2 : rep o1 m1 -> rep o2 m2 -> good H d1 h o1 -> good H d2 h o2 ->
    collision_free H (d1 ++ d2) -> forall k, m1 k = m2 k.
  Proof.
    intros R1 R2 G1 G2 N. pose proof R1 as (W1 & B1 & T1 & _ & V1). pose proof R2 as (W2 & B2 & T2 & _ & V2).
    assert (I1 : good H (d1 ++ d2) h o1) by (eapply good_incl; [|exact G1]; apply incl_appl, incl_refl).
    assert (I2 : good H (d1 ++ d2) h o2) by (eapply good_incl; [|exact G2]; apply incl_appr, incl_refl).
    pose proof (good_node H Hlen _ _ _ W1 B1 N I1) as Q1. pose proof (good_node H Hlen _ _ _ W2 B2 N I2) as Q2.
    rewrite Q1 in Q2. injection Q2 as Eo.
    assert (Same : forall k, is_bytes k -> m1 k = m2 k).
    { intros k Hk. pose proof (bin_to_nibbles_nibbles k Hk) as Hn.
      assert (F1 : get_f any_node (S (length (bin_to_nibbles k))) (d1 ++ d2) (oitem H o1) (bin_to_nibbles k)
                   = Ok (Some (Str (oget o1 (bin_to_nibbles k))), orpath H o1 (bin_to_nibbles k))).
      { apply oget_refines; auto. eapply good_stored; eauto. }
      assert (F2 : get_f any_node (S (length (bin_to_nibbles k))) (d1 ++ d2) (oitem H o2) (bin_to_nibbles k)
                   = Ok (Some (Str (oget o2 (bin_to_nibbles k))), orpath H o2 (bin_to_nibbles k))).
      { apply oget_refines; auto. eapply good_stored; eauto. }
      rewrite Eo, F2 in F1. injection F1 as F1 _. rewrite T1, T2 in F1 by auto.
      apply (encode_value_inj _ _ (enc (m1 k))); [apply encode_value_ok; intros x Ex; apply (V1 k x Ex)|].
      rewrite <- F1. apply encode_value_ok. intros x Ex. apply (V2 k x Ex). }
    intros k. destruct (m1 k) as [v|] eqn:E1.
    - rewrite <- E1. apply Same. apply (V1 k v E1).
    - destruct (m2 k) as [v|] eqn:E2; auto. rewrite <- E1, <- E2. apply Same. apply (V2 k v E2).
  Qed.

  (** The same root stands for the same content, unless a hash collision is at hand. *)
  Theorem C11_content_of_root ops1 ops2 h : usable H limit ops1 -> usable H limit ops2 ->
    get_root_hash H (state_after H limit ops1) = Ok h -> get_root_hash H (state_after H limit ops2) = Ok h ->
    collision_free H (r_puts (fst (run H limit ops1)) ++ r_puts (fst (run H limit ops2))) ->
    forall k, sp_head (spec_run ops1) k = sp_head (spec_run ops2) k.
  Proof.
    intros U1 U2 E1 E2 N. destruct (head_root ops1 U1) as (o1 & R1 & G1 & Q1). destruct (head_root ops2 U2) as (o2 & R2 & G2 & Q2).
    assert (h = root_hash_of H o1) as Eh1 by congruence. assert (h = root_hash_of H o2) as Eh2 by congruence.
    rewrite <- Eh1 in G1. rewrite <- Eh2 in G2.
    destruct U1 as (Ho1 & N1 & Hx1). destruct U2 as (Ho2 & N2 & Hx2).
    destruct (run_inv H Hlen limit ops1 Ho1 N1 Hx1) as (_ & I1 & _). destruct (run_inv H Hlen limit ops2 Ho2 N2 Hx2) as (_ & I2 & _).
    apply (roots_equal (r_puts (fst (run H limit ops1))) (r_puts (fst (run H limit ops2))) h o1 o2); auto.
    - eapply good_incl; [|exact G1]. exact I1.
    - eapply good_incl; [|exact G2]. exact I2.
  Qed.

  (** ** C12: proofs are complete *)
  Lemma proof_of ops i key : usable H limit ops -> key_ok limit key -> i <= length ops ->
    exists o, rep o (past (spec_run ops) i) /\ root_after H limit ops i = root_hash_of H o /\
      good H (t_kv (state_after H limit ops)) (root_after H limit ops i) o /\
      proof_at H limit (state_after H limit ops) (root_after H limit ops i) key
        = Ok (proof_nodes H o key, Some (Str (enc (past (spec_run ops) i key)))).
  Proof.
    intros U [Hk Hl] Hi. pose proof U as (Ho & N & Hx). destruct (run_inv H Hlen limit ops Ho N Hx) as (I & Inc & _).
    destruct I as [_ _ _ P]. destruct (past_nth _ _ _ _ i P) as (o & R & G); [rewrite spec_past_length; lia|].
    exists o. split; [exact R|]. split; [apply (good_hash _ _ _ _ G)|]. split; [exact G|].
    assert (Nt : collision_free H (t_kv (state_after H limit ops))) by (eapply nocoll_incl; eauto).
    unfold proof_at. rewrite (hash_node H Hlen _ _ o); auto; [|apply R|apply R]. cbn [bind].
    unfold generate_state_proof. pose proof (good_stored _ _ _ _ G) as St.
    rewrite (read_ok H Hlen limit o _ (t_kv (state_after H limit ops)) key any_node R St Nt Hk Hl) by reflexivity. reflexivity.
  Qed.

  Lemma past_small ops i key x : usable H limit ops -> i <= length ops -> past (spec_run ops) i key = Some x -> (lenN x < 2 ^ 58)%N.
  Proof.
    intros (Ho & N & Hx) Hi E. destruct (run_inv H Hlen limit ops Ho N Hx) as (I & Inc & _).
    destruct I as [_ _ _ P]. destruct (past_nth _ _ _ _ i P) as (o & R & _); [rewrite spec_past_length; lia|].
    destruct R as (_ & _ & _ & _ & V). apply (V key x E).
  Qed.

  (** For each root the client read and each key, the state generates a proof, with the value; every
      list of nodes containing it (in any order, with any other nodes) verifies the presence of the
      value, or the absence of one. *)
  Theorem C12_proofs_verify ops i key : usable H limit ops -> key_ok limit key -> i <= length ops ->
    exists nodes v,
      proof_at H limit (state_after H limit ops) (root_after H limit ops i) key = Ok (nodes, v) /\
      decode_value v = seen (past (spec_run ops) i key) /\
      Forall (fun n => rlp_encode n = Ok (rlp n)) nodes /\
      forall nodes', incl nodes nodes' -> Forall (fun n => rlp_encode n = Ok (rlp n)) nodes' ->
        collision_free H (hashed H nodes') ->
        verify_state_proof H limit (root_after H limit ops i) key (past (spec_run ops) i key) nodes' = Ok true.
  Proof.
    intros U K Hi. destruct (proof_of ops i key U K Hi) as (o & R & Er & G & Ep).
    exists (proof_nodes H o key), (Some (Str (enc (past (spec_run ops) i key)))). split; [exact Ep|].
    split; [apply decode_ok; intros x; apply past_small; auto|].
    split.
    { pose proof R as (W & B & _). unfold proof_nodes. apply Forall_app. split.
      - apply Forall_forall. intros n Hn. destruct o as [t|]; [|destruct Hn]. cbn [orpath owf obnd] in *.
        apply (path_encodable H Hlen t W B _ (bin_to_nibbles_nibbles key (proj1 K)) _ Hn).
      - constructor; [|constructor]. destruct o as [t|]; [apply node_encode; auto|reflexivity]. }
    intros nodes' Inc F N. destruct K as [Hk Hl].
    destruct (verify_complete H Hlen limit o _ _ key nodes' R Er Hk Hl F Inc N) as (d & r & Ed & En & g & Eg).
    unfold verify_state_proof. rewrite encode_value_ok by (intros x; apply past_small; auto). cbn [bind].
    unfold verify_spv_proof. rewrite Ed. cbn [bind]. rewrite En. cbn [bind]. rewrite Eg. cbn [bind].
    rewrite same_value_refl. reflexivity.
  Qed.

  (** The same for several keys at once. *)
  Theorem C12_multi_proofs_verify ops i (kvs : list (bytes * option bytes)) : usable H limit ops -> i <= length ops ->
    (forall k v, In (k, v) kvs -> key_ok limit k /\ v = past (spec_run ops) i k) ->
    forall nodes', (forall k v, In (k, v) kvs ->
        exists nodes val, proof_at H limit (state_after H limit ops) (root_after H limit ops i) k = Ok (nodes, val) /\ incl nodes nodes') ->
      kvs <> [] -> Forall (fun n => rlp_encode n = Ok (rlp n)) nodes' -> collision_free H (hashed H nodes') ->
      verify_state_proof_multi H limit (root_after H limit ops i) kvs nodes' = Ok true.
  Proof.
    intros U Hi Hkv nodes' Hn Hne F N. unfold verify_state_proof_multi.
    set (f := fun '(k, v) => _).
    assert (Em : mapM f kvs = Ok (map (fun '(k, v) => (k, enc v)) kvs)).
    { clear Hn Hne. induction kvs as [|[k v] kvs IH]; auto. cbn [mapM map]. unfold f at 1.
      destruct (Hkv k v (or_introl eq_refl)) as [_ Ev].
      rewrite encode_value_ok by (intros x; rewrite Ev; apply past_small; auto). cbn [bind].
      rewrite IH; [reflexivity|]. intros k' v' Hin. apply Hkv. right. auto. }
    rewrite Em. cbn [bind]. clear f Em.
    assert (Each : forall k v, In (k, v) kvs -> exists d r, proof_store H nodes' [] = Ok d /\
       root_node_of H (in_proof nodes') d (root_after H limit ops i) = Ok r /\
       exists g, get_f (in_proof nodes') limit d r (bin_to_nibbles k) = Ok (Some (Str (enc v)), g)).
    { intros k v Hin. destruct (Hkv k v Hin) as [Kk ->]. destruct (Hn k _ Hin) as (nodes & val & Ep & Inc).
      destruct (proof_of ops i k U Kk Hi) as (o & R & Er & G & Ep'). rewrite Ep in Ep'. injection Ep' as -> ->.
      destruct Kk as [Hk Hl]. eapply verify_complete; eauto. }
    unfold verify_spv_proof_multi. destruct kvs as [|[k v] kvs']; [congruence|].
    destruct (Each k v (or_introl eq_refl)) as (d & r & Ed & Er & _). rewrite Ed. cbn [bind]. rewrite Er. f_equal.
    set (l := (k, v) :: kvs') in *. clearbody l. clear Hne Hn Hkv.
    induction l as [|[k1 v1] l IH]; auto. cbn [map check_all].
    destruct (Each k1 v1 (or_introl eq_refl)) as (d' & r' & Ed' & Er' & g & Eg).
    rewrite Ed in Ed'. injection Ed' as <-. rewrite Er in Er'. injection Er' as <-. rewrite Eg.
    rewrite same_value_refl. apply IH. intros k2 v2 Hin. apply Each. right. auto.
  Qed.

  (** A serialized proof is read back unchanged. *)
  Theorem C12_wire nodes b : serialize_proof nodes = Ok b -> deserialize_proof b = Ok (Lst nodes).
  Proof. apply C15_roundtrip. Qed.

  (** ** C13: proofs are sound *)
  (** A proof accepted for a root of the state shows the value the state has there. *)
  Theorem C13_accepted_value_is_true ops i key v nodes : usable H limit ops -> i <= length ops ->
    Forall (fun b => (b < 256)%N) key ->
    collision_free H (r_puts (fst (run H limit ops)) ++ hashed H nodes) ->
    verify_state_proof H limit (root_after H limit ops i) key v nodes = Ok true ->
    v = past (spec_run ops) i key.
  Proof.
    intros U Hi Hk N. pose proof U as (Ho & N0 & Hx). destruct (run_inv H Hlen limit ops Ho N0 Hx) as (I & Inc & _).
    destruct I as [_ _ _ P]. destruct (past_nth _ _ _ _ i P) as (o & R & G); [rewrite spec_past_length; lia|].
    unfold verify_state_proof. destruct (encode_value v) as [e|] eqn:Ev; cbn [bind]; [|discriminate].
    pose proof (encode_value_inv _ _ Ev) as ->. intros E.
    assert (Same : enc v = enc (nth i (sp_past (spec_run ops)) smap_empty key)).
    { eapply verify_sound; eauto. eapply nocoll_incl; [|exact N].
      apply incl_app; [apply incl_appl; exact Inc|apply incl_appr, incl_refl]. }
    eapply encode_value_inj; [exact Ev|]. rewrite Same. apply encode_value_ok. intros x Ex.
    eapply past_small; eauto.
  Qed.

  Lemma check_all_inv nodes d r kvs : check_all limit nodes d r kvs = true ->
    forall k e, In (k, e) kvs -> exists v g, get_f (in_proof nodes) limit d r (bin_to_nibbles k) = Ok (v, g) /\ same_value v e = true.
  Proof.
    induction kvs as [|[k e] kvs IH]; intros E k' e' Hin; [destruct Hin|]. cbn [check_all] in E.
    destruct (get_f (in_proof nodes) limit d r (bin_to_nibbles k)) as [[v g]|] eqn:Eg; [|discriminate].
    destruct (same_value v e) eqn:Es; [|discriminate]. destruct Hin as [Hin|Hin]; [|eauto]. injection Hin as <- <-. eauto.
  Qed.
  Theorem C13_multi_is_each root kvs nodes k v : verify_state_proof_multi H limit root kvs nodes = Ok true -> In (k, v) kvs ->
    verify_state_proof H limit root k v nodes = Ok true.
  Proof.
    unfold verify_state_proof_multi. set (f := fun '(k, v) => _). destruct (mapM f kvs) as [l|] eqn:Em; cbn [bind]; [|discriminate].
    intros E Hin. assert (Hl : exists e, encode_value v = Ok e /\ In (k, e) l).
    { clear E. revert l Em. induction kvs as [|[k1 v1] kvs IH]; intros l Em; [destruct Hin|]. cbn [mapM] in Em. unfold f in Em at 1.
      destruct (encode_value v1) as [e1|] eqn:E1; cbn [bind] in Em; [|discriminate].
      destruct (mapM f kvs) as [l1|] eqn:El; cbn [bind] in Em; [|discriminate]. injection Em as <-.
      destruct Hin as [Hin|Hin]; [injection Hin as -> ->; exists e1; split; auto; left; auto|].
      destruct (IH Hin l1 eq_refl) as (e & Ee & Ie). exists e. split; auto. right. auto. }
    destruct Hl as (e & Ee & Ie). unfold verify_state_proof. rewrite Ee. cbn [bind].
    unfold verify_spv_proof_multi in E. unfold verify_spv_proof.
    destruct (proof_store H nodes []) as [d|]; cbn [bind] in *; [|discriminate].
    destruct (root_node_of H (in_proof nodes) d root) as [r|]; cbn [bind]; [|discriminate]. injection E as E.
    destruct (check_all_inv _ _ _ _ E k e Ie) as (v' & g & Eg & Es). rewrite Eg. cbn [bind]. rewrite Es. reflexivity.
  Qed.

  (** No two accepted proofs show different values for one root and key; no honest state is assumed. *)
  Theorem C13_one_value root key v1 v2 nodes1 nodes2 :
    collision_free H (hashed H nodes1 ++ hashed H nodes2) ->
    verify_state_proof H limit root key v1 nodes1 = Ok true ->
    verify_state_proof H limit root key v2 nodes2 = Ok true -> v1 = v2.
  Proof.
    intros N. unfold verify_state_proof.
    destruct (encode_value v1) as [e1|] eqn:E1; cbn [bind]; [|discriminate].
    destruct (encode_value v2) as [e2|] eqn:E2; cbn [bind]; [|discriminate]. intros A B.
    assert (e1 = e2) as -> by (eapply (spv_binding H Hlen); eauto). eapply encode_value_inj; eauto.
  Qed.
End Props.

(** ** Examples: a toy hash (two running sums of the bytes, in 32 bytes of which the first is 128), so that
    the hypotheses can be computed *)
Fixpoint to_bytes (n : nat) (x : N) : bytes :=
  match n with 0 => [] | S n' => to_bytes n' (x / 256) ++ [(x mod 256)%N] end.
Definition sums (x : bytes) : N * N := fold_left (fun '(a, s) b => (a + b + 1, s + a + b)%N) x (7, 0)%N.
Definition toy (x : bytes) : bytes := let '(a, s) := sums x in 128%N :: repeat 0%N 25 ++ to_bytes 2 a ++ to_bytes 4 s.
Lemma to_bytes_length n x : length (to_bytes n x) = n.
Proof. revert x. induction n as [|n IH]; intros x; cbn [to_bytes]; auto. rewrite app_length, IH. cbn [length]. lia. Qed.
Lemma toy_length x : length (toy x) = 32.
Proof. unfold toy. destruct (sums x). cbn [length]. rewrite !app_length, !to_bytes_length. reflexivity. Qed.

Definition collision_freeb (H : bytes -> bytes) (d : kv) : bool :=
  let l := (H [128%N], [128%N]) :: d in
  forallb (fun '(k, a) => if bytes_eqb k rootHashKey then true else forallb (fun '(k', b) => if bytes_eqb k k' then bytes_eqb a b else true) l) l.
Lemma collision_freeb_ok H d : collision_freeb H d = true -> collision_free H d.
Proof.
  unfold collision_freeb, collision_free. cbv zeta. set (l := (H [128%N], [128%N]) :: d). clearbody l. intros E k a b Ha Hb Hk.
  rewrite forallb_forall in E. specialize (E _ Ha). cbn beta iota in E. rewrite (bytes_eqb_neq k rootHashKey) in E by auto.
  rewrite forallb_forall in E. specialize (E _ Hb). cbn beta iota in E. rewrite bytes_eqb_refl in E.
  apply bytes_eqb_eq. exact E.
Qed.

(** Keys that share a prefix, one a prefix of another, a long value (nodes kept by hash), removal, revert,
    commit of an earlier root, a crash in the middle of a set and a restart *)
Definition long (b : N) : bytes := repeat b 33.
Definition ex_ops : list op :=
  [OSet [1; 35]%N (long 1); OSet [1; 36]%N [2]%N; OCommit None; OSet [1; 35; 7]%N [3]%N;
   ORemove [1; 36]%N; OCommit (Some 4); ORevert 2; OCrash 1 (OSet [2]%N [5]%N); ORestart].

Definition no_hexb (l : list bytes) : bool := forallb (fun h => negb (isHex h)) l.
Lemma no_hexb_ok l : no_hexb l = true -> forall h, In h l -> isHex h = false.
Proof. unfold no_hexb. rewrite forallb_forall. intros E h Hh. apply negb_true_iff, E, Hh. Qed.
Definition runs_well (H : bytes -> bytes) (ops : list op) : bool :=
  let r := fst (run H 100 ops) in collision_freeb H (r_puts r) && no_hexb (r_roots r).
Lemma runs_well_ok H ops : ops_ok 100 1 ops -> runs_well H ops = true -> usable H 100 ops.
Proof.
  intros O E. apply andb_prop in E as [E1 E2]. split; auto. split; [apply collision_freeb_ok; auto|apply no_hexb_ok; auto].
Qed.

Example usable_ex : usable toy 100 ex_ops.
Proof.
  apply runs_well_ok; [|vm_compute; reflexivity].
  unfold ex_ops, long. cbn [ops_ok op_ok length repeat]. repeat split; try lia; try (repeat constructor; lia); vm_compute; reflexivity.
Qed.
Example key_ex : key_ok 100 [1; 36]%N.
Proof. split; [repeat constructor; lia|cbn; lia]. Qed.

Example C10_ex :
  (forall k, key_ok 100 k -> s_get toy 100 (state_after toy 100 ex_ops) k false = seen (sp_head (spec_run ex_ops) k)) /\
  sp_head (spec_run ex_ops) [1; 35]%N = Some (long 1) /\ sp_head (spec_run ex_ops) [1; 36]%N = Some [2]%N /\
  sp_head (spec_run ex_ops) [1; 35; 7]%N = Some [3]%N /\ sp_head (spec_run ex_ops) [2]%N = None.
Proof.
  split; [intros k K; apply (C10_state_is_a_map toy toy_length 100 ex_ops k usable_ex K)|].
  refine (conj _ (conj _ (conj _ _))); vm_compute; reflexivity.
Qed.
Example C14_past_ex :
  s_get_for_root_hash toy 100 (state_after toy 100 ex_ops) (root_after toy 100 ex_ops 5) [1; 36]%N = seen None /\
  past (spec_run ex_ops) 5 [1; 36]%N = None /\ past (spec_run ex_ops) 4 [1; 36]%N = Some [2]%N.
Proof. refine (conj _ (conj _ _)); vm_compute; reflexivity. Qed.

(** Two different ways to one content *)
Definition ex_ops2 : list op := [OSet [7]%N [7]%N; OSet [1; 35; 7]%N [3]%N; OSet [1; 36]%N [2]%N; OSet [1; 35]%N (long 1); ORemove [7]%N].
Example usable_ex2 : usable toy 100 ex_ops2.
Proof.
  apply runs_well_ok; [|vm_compute; reflexivity].
  unfold ex_ops2, long. cbn [ops_ok op_ok length repeat]. repeat split; try lia; try (repeat constructor; lia); vm_compute; reflexivity.
Qed.
Example C11_ex : get_root_hash toy (state_after toy 100 ex_ops) = get_root_hash toy (state_after toy 100 ex_ops2) /\
  collision_free toy (r_puts (fst (run toy 100 ex_ops)) ++ r_puts (fst (run toy 100 ex_ops2))) /\
  forall k, sp_head (spec_run ex_ops) k = sp_head (spec_run ex_ops2) k.
Proof.
  assert (E : get_root_hash toy (state_after toy 100 ex_ops) = get_root_hash toy (state_after toy 100 ex_ops2)) by (vm_compute; reflexivity).
  assert (N : collision_free toy (r_puts (fst (run toy 100 ex_ops)) ++ r_puts (fst (run toy 100 ex_ops2))))
    by (apply collision_freeb_ok; vm_compute; reflexivity).
  split; [exact E|]. split; [exact N|].
  destruct (head_root toy toy_length 100 ex_ops usable_ex) as (o & _ & _ & E1).
  apply (C11_content_of_root toy toy_length 100 ex_ops ex_ops2 (root_hash_of toy o));
    [exact usable_ex|exact usable_ex2|exact E1|rewrite <- E; exact E1|exact N].
Qed.

(** A proof of presence and one of absence, and proofs that are refused *)
Definition nodes_of (x : res (list item * option item)) : list item := match x with Ok (n, _) => n | Err _ => [] end.
Definition ex_nodes (k : bytes) : list item :=
  nodes_of (proof_at toy 100 (state_after toy 100 ex_ops2) (root_after toy 100 ex_ops2 5) k).
Definition ok_is (b : bool) (x : res bool) : bool := match x with Ok c => Bool.eqb b c | Err _ => false end.
Example C12_ex :
  (let nodes := ex_nodes [1; 35; 7]%N in let root := root_after toy 100 ex_ops2 5 in
   (length nodes =? 3) &&
   ok_is true (verify_state_proof toy 100 root [1; 35; 7]%N (Some [3]%N) (rev nodes)) &&
   ok_is true (verify_state_proof toy 100 root [1; 35; 8]%N None nodes) &&
   ok_is false (verify_state_proof toy 100 root [1; 35; 7]%N (Some [4]%N) nodes) &&
   ok_is false (verify_state_proof toy 100 root [1; 35; 7]%N (Some [3]%N) (tl nodes)) &&
   collision_freeb toy (r_puts (fst (run toy 100 ex_ops2)) ++ hashed toy nodes)) = true.
Proof. vm_compute. reflexivity. Qed.

(** ** The exception: [commit] takes a root of 32 ASCII hex digits for a hex string, and stores 16 bytes;
    the state cannot be opened again. A hash whose results are always such: *)
Definition hex_char (n : N) : N := if (n <? 10)%N then (n + 48)%N else (n + 87)%N.
Fixpoint to_hex (n : nat) (x : N) : bytes :=
  match n with 0 => [] | S n' => to_hex n' (x / 16) ++ [hex_char (x mod 16)] end.
Definition hexy (x : bytes) : bytes :=
  to_hex 32 (snd (sums x)).
Lemma hexy_length x : length (hexy x) = 32.
Proof.
  unfold hexy. generalize (snd (sums x)) as y. generalize 32 as n.
  induction n as [|n IH]; intros y; cbn [to_hex]; auto. rewrite app_length, IH. cbn [length]. lia.
Qed.
Theorem C14_hex_root_refuted : exists H, (forall x, length (H x) = 32) /\ exists ops,
  ops_ok 100 1 ops /\ collision_free H (r_puts (fst (run H 100 ops))) /\
  results H 100 ops <> repeat (Ok tt) (length ops) /\
  s_get H 100 (state_after H 100 ops) [1]%N true <> seen (sp_committed (spec_run ops) [1]%N).
Proof.
  exists hexy. split; [apply hexy_length|]. exists [OSet [1]%N [2]%N; OCommit (Some 1); ORestart].
  split; [cbn [ops_ok op_ok length]; repeat split; try lia; try (repeat constructor; lia); vm_compute; reflexivity|].
  split; [apply collision_freeb_ok; vm_compute; reflexivity|].
  split; vm_compute; discriminate.
Qed.

Print Assumptions C10_state_is_a_map.
Print Assumptions C11_root_of_content.
Print Assumptions C11_content_of_root.
Print Assumptions C12_proofs_verify.
Print Assumptions C12_multi_proofs_verify.
Print Assumptions C12_wire.
Print Assumptions C13_accepted_value_is_true.
Print Assumptions C13_multi_is_each.
Print Assumptions C13_one_value.
Print Assumptions C14_committed_reads.
Print Assumptions C14_past_roots.
Print Assumptions C14_isolation.
Print Assumptions C14_restart.
Print Assumptions C14_commit.
Print Assumptions C14_crash.
Print Assumptions C14_hex_root_refuted.
