(** Proofs about reading the state with proofs and at times. *)
From Coq Require Import List Arith NArith Bool Lia Sorted.
From Verif Require Import Base Rlp_Model Rlp_Props Trie_Model Trie_Spec Trie_Abs Trie_Proofs State_Proofs State_Props
  Read_Model Read_Spec.
Import ListNotations.

(** ** The store of roots by time *)
Lemma ts_entry_le t s k r : ts_entry t s = Some (k, r) -> k <= t.
Proof.
  revert k r. induction s as [|[k0 r0] s IH]; intros k r E; cbn [ts_entry] in E; [discriminate|].
  destruct (Nat.ltb_spec t k0) as [L|L]; [eauto|].
  destruct (ts_entry t s) as [[k' r']|] eqn:Es.
  - destruct (k0 <? k'); injection E as <- <-; eauto.
  - injection E as <- <-. auto.
Qed.
Lemma ts_entry_in t s k r : ts_entry t s = Some (k, r) -> In (k, r) s.
Proof.
  revert k r. induction s as [|[k0 r0] s IH]; intros k r E; cbn [ts_entry] in E; [discriminate|].
  destruct (t <? k0); [right; eauto|].
  destruct (ts_entry t s) as [[k' r']|] eqn:Es.
  - destruct (k0 <? k'); injection E as <- <-; [right; eauto|left; reflexivity].
  - injection E as <- <-. left. reflexivity.
Qed.
Lemma last_until_snoc t l c : last_until t (l ++ [c]) = if fst c <=? t then Some c else last_until t l.
Proof.
  induction l as [|x l IH]; cbn [app last_until]; [destruct (fst c <=? t); reflexivity|].
  rewrite IH. destruct (fst c <=? t); reflexivity.
Qed.
Lemma last_until_in t l c : last_until t l = Some c -> In c l /\ fst c <= t.
Proof.
  revert c. induction l as [|x l IH]; intros c E; cbn [last_until] in E; [discriminate|].
  destruct (last_until t l) as [c'|].
  - injection E as <-. destruct (IH c' eq_refl). split; [right|]; auto.
  - destruct (Nat.leb_spec (fst x) t); [|discriminate]. injection E as <-. split; [left|]; auto.
Qed.
Lemma sorted_snoc (l : list nat) x : StronglySorted le (l ++ [x]) -> StronglySorted le l /\ forall y, In y l -> y <= x.
Proof.
  induction l as [|a l IH]; cbn [app]; intros Hs; [split; [constructor|intros y []]|].
  inversion Hs as [|? ? Hs' F]; subst. destruct (IH Hs') as [A B]. rewrite Forall_app in F. destruct F as [F1 F2].
  inversion F2; subst. split; [constructor; auto|]. intros y [<-|Hy]; auto.
Qed.
Lemma ts_entry_rev (f : nat -> bytes) t l : StronglySorted le (map fst l) ->
  ts_entry t (rev (map (fun c => (fst c, f (snd c))) l)) = option_map (fun c => (fst c, f (snd c))) (last_until t l).
Proof.
  induction l as [|c l IH] using rev_ind; intros Hs; [reflexivity|].
  rewrite map_app in Hs. cbn [map] in Hs. destruct (sorted_snoc _ _ Hs) as [Hs' Hm].
  rewrite map_app, rev_app_distr. cbn [map rev app ts_entry]. rewrite IH by auto. rewrite last_until_snoc.
  destruct (Nat.ltb_spec t (fst c)) as [L|L]; destruct (Nat.leb_spec (fst c) t) as [L'|L']; try lia; auto.
  destruct (last_until t l) as [c'|] eqn:El; cbn [option_map]; auto.
  destruct (last_until_in _ _ _ El) as [Hin _].
  assert (fst c' <= fst c) by (apply Hm, in_map, Hin). destruct (Nat.ltb_spec (fst c) (fst c')); [lia|reflexivity].
Qed.

Section Proofs.
  Variable H : bytes -> bytes.
  Hypothesis Hlen : forall x, length (H x) = 32.
  Variable limit : nat.
  Variable msig : Type.
  Variable m_root : msig -> bytes.
  Notation event := (event msig).
  Notation after := (@after H limit msig).

  (** ** Events and operations *)
  Lemma ops_of_snoc (es : list event) e : ops_of (es ++ [e]) = ops_of es ++ ops_of_event (length (ops_of es)) e.
  Proof. unfold ops_of. rewrite fold_left_app. reflexivity. Qed.
  Lemma after_snoc (es : list event) e : after (es ++ [e]) = handle H limit (after es) e.
  Proof. unfold Read_Model.after. rewrite fold_left_app. reflexivity. Qed.
  Lemma ops_from (es : list event) : forall ops,
    fold_left (fun ops e => ops ++ ops_of_event (length ops) e) es ops =
    ops ++ skipn (length ops) (fold_left (fun ops e => ops ++ ops_of_event (length ops) e) es ops).
  Proof.
    intros ops. assert (P : exists x, fold_left (fun ops e => ops ++ ops_of_event (length ops) e) es ops = ops ++ x).
    { revert ops. induction es as [|e es IH]; intros ops; cbn [fold_left]; [exists []; rewrite app_nil_r; reflexivity|].
      destruct (IH (ops ++ ops_of_event (length ops) e)) as [x E]. rewrite E. exists (ops_of_event (length ops) e ++ x).
      rewrite app_assoc. reflexivity. }
    destruct P as [x ->]. rewrite skipn_app, skipn_all, Nat.sub_diag. reflexivity.
  Qed.
  Lemma commits_snoc_gen (es : list event) e : forall ops,
    commits (length ops) (es ++ [e]) = commits (length ops) es ++
      commits (length (fold_left (fun ops e => ops ++ ops_of_event (length ops) e) es ops)) [e].
  Proof.
    induction es as [|x es IH]; intros ops; [reflexivity|].
    change ((x :: es) ++ [e]) with (x :: (es ++ [e])). cbn [fold_left].
    assert (Q : forall l, @commits msig (length ops) (x :: l) =
              match x with EBatch i t => [(t, i)] | ECaught (Some t) => [(t, length ops)] | ELost i t => [(t, i)] | _ => [] end
              ++ commits (length (ops ++ ops_of_event (length ops) x)) l) by (intros l; rewrite app_length; reflexivity).
    rewrite !Q, IH, app_assoc. reflexivity.
  Qed.
  Lemma commits_snoc (es : list event) e : commits 0 (es ++ [e]) = commits 0 es ++ commits (length (ops_of es)) [e].
  Proof. exact (commits_snoc_gen es e []). Qed.

  Lemma roots_length ops : length (r_roots (fst (run H limit ops))) = S (length ops).
  Proof.
    induction ops as [|o ops IH] using rev_ind; [reflexivity|].
    rewrite run_app, app_length. unfold step. destruct (run H limit ops) as [r xs]. cbn [fst] in *.
    destruct (run_op H limit r o) as [[t' x] new]. cbn [fst r_roots]. rewrite app_length, IH. cbn [length]. lia.
  Qed.
  Lemma root_stable ops ops' i : i <= length ops -> root_after H limit (ops ++ ops') i = root_after H limit ops i.
  Proof.
    intros Hi. induction ops' as [|o ops' IH] using rev_ind; [rewrite app_nil_r; reflexivity|].
    rewrite app_assoc, <- IH. unfold root_after, root_at. rewrite run_app. unfold step.
    pose proof (roots_length (ops ++ ops')) as Rl. rewrite app_length in Rl.
    destruct (run H limit (ops ++ ops')) as [r xs]. cbn [fst] in *.
    destruct (run_op H limit r o) as [[t' x] new]. cbn [fst r_roots]. rewrite app_nth1 by lia. reflexivity.
  Qed.

  Lemma run_after (es : list event) : n_run (after es) = run H limit (ops_of es).
  Proof.
    induction es as [|e es IH] using rev_ind; [reflexivity|].
    rewrite after_snoc, ops_of_snoc. destruct e as [o|i t|t|i t|m]; cbn [handle ops_of_event do_op put_ts n_run].
    - rewrite IH, run_app. reflexivity.
    - rewrite IH, run_app. reflexivity.
    - rewrite IH, roots_length. replace (S (length (ops_of es)) - 1) with (length (ops_of es)) by lia.
      destruct t; cbn [n_run put_ts do_op]; rewrite IH, run_app; reflexivity.
    - change [OCommit (Some i); ORestart] with ([OCommit (Some i)] ++ [ORestart]).
      rewrite app_assoc, !run_app, IH. reflexivity.
    - rewrite app_nil_r. exact IH.
  Qed.

  Lemma commits_bound (es : list event) : ops_ok limit 1 (ops_of es) ->
    Forall (fun c => snd c <= length (ops_of es)) (commits 0 es).
  Proof.
    induction es as [|e es IH] using rev_ind; intros O; [constructor|].
    rewrite commits_snoc. rewrite ops_of_snoc in *. apply ops_ok_app in O as [O Oe]. specialize (IH O).
    apply Forall_app. split.
    - eapply Forall_impl; [|exact IH]. cbn beta. intros c Hc. rewrite app_length. lia.
    - cbn [commits]. rewrite app_nil_r.
      destruct e as [o|i t|[t|]|i t|m]; cbn [ops_of_event ops_ok op_ok] in *; repeat constructor; cbn [snd]; rewrite app_length; cbn [length]; lia.
  Qed.

  Lemma ts_after (es : list event) : ops_ok limit 1 (ops_of es) -> no_loss es ->
    n_ts (after es) = rev (map (fun c => (fst c, root_after H limit (ops_of es) (snd c))) (commits 0 es)).
  Proof.
    induction es as [|e es IH] using rev_ind; intros O NL; [reflexivity|].
    assert (NL' : no_loss es) by (intros i t Hi; apply (NL i t), in_or_app; auto).
    rewrite commits_snoc. rewrite ops_of_snoc in *. apply ops_ok_app in O as [O Oe].
    rewrite after_snoc. specialize (IH O NL'). pose proof (commits_bound es O) as B. rewrite Forall_forall in B.
    assert (Same : map (fun c => (fst c, root_after H limit (ops_of es ++ ops_of_event (length (ops_of es)) e) (snd c))) (commits 0 es)
                 = map (fun c => (fst c, root_after H limit (ops_of es) (snd c))) (commits 0 es)).
    { apply map_ext_in. intros c Hc. rewrite root_stable by (apply B; auto). reflexivity. }
    rewrite map_app, rev_app_distr, Same, <- IH. clear Same.
    destruct e as [o|i t|t|i t|m]; cbn [handle commits do_op put_ts n_ts n_run ts_set].
    - reflexivity.
    - cbn [app map rev fst snd]. unfold ts_set. rewrite run_after. f_equal. f_equal.
      cbn [ops_of_event ops_ok op_ok] in Oe. rewrite root_stable by lia. reflexivity.
    - rewrite run_after, roots_length. replace (S (length (ops_of es)) - 1) with (length (ops_of es)) by lia.
      destruct t as [t|]; [|reflexivity]. cbn [app map rev fst snd put_ts n_ts]. unfold ts_set. f_equal. f_equal.
      rewrite root_stable by lia. reflexivity.
    - exfalso. apply (NL i t), in_or_app. right. left. reflexivity.
    - reflexivity.
  Qed.

  Lemma bls_after (es : list event) m : In m (n_bls (after es)) <-> In (ESig m) es.
  Proof.
    induction es as [|e es IH] using rev_ind; [reflexivity|].
    rewrite after_snoc, in_app_iff.
    assert (Q : In m (n_bls (handle H limit (after es) e)) <-> In m (n_bls (after es)) \/ e = ESig m).
    { destruct e as [o|i t|[t|]|i t|m']; cbn [handle do_op put_ts n_bls]; try (split; [auto|intros [Hx|Hx]; [exact Hx|discriminate]]).
      cbn [In]. split; [intros [<-|Hx]; auto|intros [Hx|Hx]; [auto|injection Hx as ->; auto]]. }
    rewrite Q, IH. cbn [In]. tauto.
  Qed.
  Lemma bls_get_some root l m : bls_get m_root root l = Some m -> In m l /\ m_root m = root.
  Proof. unfold bls_get. intros E. apply find_some in E as [A B]. split; auto. apply bytes_eqb_eq. exact B. Qed.
  Lemma bls_get_none root l m : bls_get m_root root l = None -> In m l -> m_root m <> root.
  Proof. unfold bls_get. intros E Hi <-. apply (find_none _ _ E) in Hi. rewrite bytes_eqb_refl in Hi. discriminate. Qed.

  (** ** A root which is known *)
  Lemma known_len d h m : root_known H d h m -> exists b h', h = b :: h'.
  Proof.
    intros (o & _ & G). assert (L : length h = 32).
    { destruct o as [t|]; cbn [good] in G; [destruct G as (-> & _)|rewrite G; unfold BLANK_ROOT]; apply Hlen. }
    destruct h; [discriminate L|eauto].
  Qed.

  (** the proof at it *)
  Lemma known_proof ops h m key : usable H limit ops -> key_ok limit key -> root_known H (t_kv (state_after H limit ops)) h m ->
    exists node nodes v, hash_to_node H (state_after H limit ops) h = Ok node /\
      generate_state_proof limit (state_after H limit ops) node key = Ok (nodes, v) /\
      decode_value v = seen (m key) /\
      verify_state_proof H limit h key (m key) nodes = Ok true.
  Proof.
    intros (Ho & N & Hx) [Hk Hl] (o & R & G). destruct (run_inv H Hlen limit ops Ho N Hx) as (_ & Inc & _).
    fold (state_after H limit ops) in *. set (t := state_after H limit ops) in *. clearbody t.
    assert (Nt : collision_free H (t_kv t)) by (eapply nocoll_incl; eauto).
    pose proof R as (W & B & _ & _ & V).
    exists (oitem H o), (proof_nodes H o key), (Some (Str (enc (m key)))).
    split; [apply (hash_node H Hlen _ _ o); auto|].
    split.
    { unfold generate_state_proof. rewrite (read_ok H Hlen limit o _ (t_kv t) key any_node R (good_stored _ _ _ _ G) Nt Hk Hl) by reflexivity.
      reflexivity. }
    assert (Lv : forall x, m key = Some x -> (lenN x < 2 ^ 58)%N) by (intros x Ex; apply (V key x Ex)).
    split; [apply decode_ok; exact Lv|].
    assert (En : Forall (fun n => rlp_encode n = Ok (rlp n)) (proof_nodes H o key)).
    { unfold proof_nodes. apply Forall_app. split.
      - apply Forall_forall. intros n Hn. destruct o as [t0|]; [|destruct Hn]. cbn [orpath owf obnd] in *.
        apply (path_encodable H Hlen t0 W B _ (bin_to_nibbles_nibbles key Hk) _ Hn).
      - constructor; [|constructor]. destruct o as [t0|]; [apply node_encode; auto|reflexivity]. }
    assert (Inc' : incl (hashed H (proof_nodes H o key)) ((H [128%N], [128%N]) :: t_kv t)).
    { intros e He. unfold hashed in He. apply in_map_iff in He as (n & <- & Hn). unfold proof_nodes in Hn.
      apply in_app_or in Hn as [Hn|[<-|[]]].
      - destruct o as [t0|]; [|destruct Hn]. right. cbn [good] in G. destruct G as (_ & _ & St).
        apply (stored_path H _ _ St _ _ Hn).
      - destruct o as [t0|]; cbn [oitem]; [right; destruct G as (-> & Hin & _); exact Hin|left; reflexivity]. }
    assert (Nn : collision_free H (hashed H (proof_nodes H o key))).
    { intros k a b Ha Hb. apply Nt.
      - destruct Ha as [Ha|Ha]; [left; auto|apply Inc'; auto].
      - destruct Hb as [Hb|Hb]; [left; auto|apply Inc'; auto]. }
    destruct (verify_complete H Hlen limit o _ _ key (proof_nodes H o key) R (good_hash _ _ _ _ G) Hk Hl En (incl_refl _) Nn)
      as (d & r & Ed & Enode & g & Eg).
    unfold verify_state_proof. rewrite encode_value_ok by exact Lv. cbn [bind].
    unfold verify_spv_proof. rewrite Ed. cbn [bind]. rewrite Enode. cbn [bind]. rewrite Eg. cbn [bind].
    rewrite same_value_refl. reflexivity.
  Qed.

  (** Proofs are short enough to be encoded (below 2^64 bytes). *)
  Definition short_proofs (n : node msig) (key : bytes) : Prop := forall h node nodes v,
    hash_to_node H (n_trie n) h = Ok node -> generate_state_proof limit (n_trie n) node key = Ok (nodes, v) ->
    exists b, serialize_proof nodes = Ok b.

  (** What a good reply is: the value of the content, and a proof if there is a multi-signature of
      the root; the client's check passes. *)
  Definition good_proof (es : list event) (root key : bytes) (v : option bytes) (pr : option (proof msig)) : Prop :=
    match pr with
    | None => forall s, In (ESig s) es -> m_root s <> root
    | Some p => p_root p = root /\ In (ESig (p_sig p)) es /\ m_root (p_sig p) = root /\
                client_check H limit p key v = Ok true
    end.

  Lemma trie_after (es : list event) : n_trie (after es) = state_after H limit (ops_of es).
  Proof. unfold n_trie. rewrite run_after. reflexivity. Qed.

  Lemma read_known (es : list event) h m key (head : option bytes) : usable H limit (ops_of es) -> key_ok limit key ->
    root_known H (t_kv (state_after H limit (ops_of es))) h m -> short_proofs (after es) key ->
    match head with Some (b :: h') => Ok (b :: h') | _ => committed_hash (n_trie (after es)) end = Ok h ->
    get_value_from_state H limit m_root (after es) key head false = Ok (option_map Str (m key), None) /\
    exists pr, get_value_from_state H limit m_root (after es) key head true = Ok (option_map Str (m key), pr) /\
      good_proof es h key (m key) pr.
  Proof.
    intros U K Kh Sp Eh. pose proof (read_past H Hlen limit _ _ _ key U Kh K) as Ev. rewrite <- trie_after in Ev.
    unfold get_value_from_state. rewrite Eh. cbn [bind negb]. rewrite Ev. unfold seen. cbn [bind].
    split; [reflexivity|].
    destruct (bls_get m_root h (n_bls (after es))) as [s|] eqn:Es.
    - destruct (known_proof _ _ _ _ U K Kh) as (node & nodes & v & En & Eg & Ed & Ec). rewrite <- trie_after in *.
      rewrite En. cbn [bind]. rewrite Eg. cbn [bind]. destruct (Sp _ _ _ _ En Eg) as [b Eb]. rewrite Eb. cbn [bind]. rewrite Ed.
      unfold seen. cbn [bind]. eexists. split; [reflexivity|]. cbn [good_proof p_root p_sig].
      destruct (bls_get_some _ _ _ Es) as [Hin Hr]. apply bls_after in Hin. split; [reflexivity|]. split; [exact Hin|]. split; [exact Hr|].
      unfold client_check. cbn [p_nodes p_root]. rewrite (C12_wire _ _ Eb). cbn [bind]. exact Ec.
    - eexists. split; [reflexivity|]. cbn [good_proof]. intros s Hs. eapply bls_get_none; eauto. apply bls_after. exact Hs.
  Qed.

  Lemma committed_known (es : list event) : usable H limit (ops_of es) ->
    exists h, committed_hash (n_trie (after es)) = Ok h /\
      root_known H (t_kv (state_after H limit (ops_of es))) h (sp_committed (spec_run (ops_of es))).
  Proof.
    intros (Ho & N & Hx). destruct (run_inv H Hlen limit _ Ho N Hx) as (I & _ & _). destruct I as [_ _ (h & Eh & Kh) _].
    exists h. rewrite trie_after. split; auto.
  Qed.
  Lemma past_known (es : list event) i : usable H limit (ops_of es) -> i <= length (ops_of es) ->
    root_known H (t_kv (state_after H limit (ops_of es))) (root_after H limit (ops_of es) i) (past (spec_run (ops_of es)) i).
  Proof.
    intros (Ho & N & Hx) Hi. destruct (run_inv H Hlen limit _ Ho N Hx) as (I & _ & _). destruct I as [_ _ _ P].
    apply (past_nth _ _ _ _ i P). rewrite spec_past_length. lia.
  Qed.

  Lemma ts_read (es : list event) t : usable H limit (ops_of es) -> no_loss es -> times_grow es ->
    get_equal_or_prev t (n_ts (after es)) =
    option_map (fun c => root_after H limit (ops_of es) (snd c)) (last_until t (commits 0 es)).
  Proof.
    intros (Ho & _) NL Tg. unfold get_equal_or_prev. rewrite ts_after by auto. rewrite ts_entry_rev by exact Tg.
    destruct (last_until t (commits 0 es)) as [c|]; reflexivity.
  Qed.
End Proofs.
