(** C68: reads of a ledger's state, now or at a time in the past, give the value which the state
    has, or had then, with a proof that clients accept; clients accept no other value.

    [H] is sha3_256 as in State_Props.v; [good_proof] (Read_Proofs.v): the proof in the reply is for
    this root and a multi-signature of this root that the node has, and passes the client's check
    for this key and value; without proof, the node has no multi-signature of the root. *)
From Coq Require Import List Arith NArith Bool Lia Sorted.
From Verif Require Import Base Rlp_Model Rlp_Props Trie_Model Trie_Spec Trie_Abs Trie_Proofs State_Proofs State_Props
  Read_Model Read_Spec Read_Proofs.
Import ListNotations.

Section Props.
  Variable H : bytes -> bytes.
  Hypothesis Hlen : forall x, length (H x) = 32.
  Variable limit : nat.
  Variable msig : Type.
  Variable m_root : msig -> bytes.
  Notation event := (event msig).
  Notation after := (@after H limit msig).

  (** Whatever happened to the state, a read gives the value of the content committed last, without
      or with proof. *)
  Theorem C68_now (es : list event) key : usable H limit (ops_of es) -> key_ok limit key ->
    short_proofs H limit msig (after es) key ->
    let v := sp_committed (spec_run (ops_of es)) key in
    get_value_from_state H limit m_root (after es) key None false = Ok (option_map Str v, None) /\
    exists root pr, committed_hash (n_trie (after es)) = Ok root /\
      get_value_from_state H limit m_root (after es) key None true = Ok (option_map Str v, pr) /\
      good_proof H limit msig m_root es root key v pr.
  Proof.
    intros U K Sp v. destruct (committed_known H Hlen limit msig es U) as (h & Eh & Kh).
    destruct (read_known H Hlen limit msig m_root es h _ key None U K Kh Sp Eh) as (A & pr & B & C).
    split; [exact A|]. exists h, pr. auto.
  Qed.

  (** A read at time [t] gives the value of the content committed by the last batch not later than
      [t], with a proof for that batch's root; nothing if there is no such batch. *)
  Theorem C68_at_time_partial (es : list event) key t : usable H limit (ops_of es) -> key_ok limit key ->
    short_proofs H limit msig (after es) key -> no_loss es -> times_grow es ->
    exists pr, get_value_at H limit m_root (after es) key t = Ok (option_map Str (content_at es t key), pr) /\
      match last_until t (commits 0 es) with
      | Some (_, i) => good_proof H limit msig m_root es (root_after H limit (ops_of es) i) key (content_at es t key) pr
      | None => pr = None
      end.
  Proof.
    intros U K Sp NL Tg. unfold get_value_at. rewrite (ts_read H limit msig es t U NL Tg). unfold content_at.
    destruct (last_until t (commits 0 es)) as [[t' i]|] eqn:El; cbn [option_map snd]; [|exists None; split; reflexivity].
    destruct (last_until_in _ _ _ El) as [Hin _].
    pose proof (commits_bound limit msig es (proj1 U)) as B. rewrite Forall_forall in B. specialize (B _ Hin). cbn [snd] in B.
    pose proof (past_known H Hlen limit msig es i U B) as Kh.
    destruct (known_len H Hlen _ _ _ Kh) as (b & h' & Eh).
    destruct (read_known H Hlen limit msig m_root es _ _ key (Some (root_after H limit (ops_of es) i)) U K Kh Sp) as (_ & pr & A & C);
      [rewrite Eh; reflexivity|].
    exists pr. auto.
  Qed.

  (** A client which knows (by the multi-signature) that the state had this root accepts no other
      value than the one the state had, whoever sends the reply. *)
  Theorem C68_accepted (es : list event) i p key v : usable H limit (ops_of es) -> i <= length (ops_of es) ->
    Forall (fun b => (b < 256)%N) key -> p_root p = root_after H limit (ops_of es) i ->
    (forall nodes, deserialize_proof (p_nodes p) = Ok (Lst nodes) ->
       collision_free H (r_puts (fst (run H limit (ops_of es))) ++ hashed H nodes)) ->
    @client_check H limit msig p key v = Ok true -> v = past (spec_run (ops_of es)) i key.
  Proof.
    intros U Hi Hk Er N. unfold client_check. rewrite Er.
    destruct (deserialize_proof (p_nodes p)) as [[b|nodes]|e] eqn:Ed; cbn [bind]; try discriminate.
    apply (C13_accepted_value_is_true H Hlen limit); auto.
  Qed.

  (** The agreement, asked for by version, digest, time or as the latest. *)
  Variable path_version path_digest : bytes -> bytes.
  Variable path_latest : bytes.
  Notation taa_in := (taa_in path_version path_digest path_latest).
  Notation taa_path := (taa_path path_version path_digest path_latest).
  Notation get_taa := (@get_taa H limit msig m_root path_version path_digest path_latest).

  Lemma return_taa_known (es : list event) h (m : smap) key pr (head : option bytes) : usable H limit (ops_of es) ->
    root_known H (t_kv (state_after H limit (ops_of es))) h m ->
    match head with Some (b :: h') => Ok (b :: h') | _ => committed_hash (n_trie (after es)) end = Ok h ->
    (forall d, m key = Some d -> key_ok limit (path_digest d)) ->
    return_taa H limit path_digest (after es) pr head (option_map Str (m key)) None =
    Ok (option_map Str (match m key with Some d => m (path_digest d) | None => None end), pr).
  Proof.
    intros U Kh Eh Kd. unfold return_taa. destruct (m key) as [d|]; cbn [option_map]; [|reflexivity].
    rewrite Eh. cbn [bind]. rewrite trie_after. rewrite (read_past H Hlen limit _ _ _ _ U Kh (Kd d eq_refl)). reflexivity.
  Qed.

  Theorem C68_taa_partial (es : list event) q : usable H limit (ops_of es) -> no_loss es -> times_grow es ->
    let m := match q with QTime t => content_at es t | _ => sp_committed (spec_run (ops_of es)) end in
    let key := taa_path q in
    key_ok limit key -> (forall d, m key = Some d -> key_ok limit (path_digest d)) ->
    short_proofs H limit msig (after es) key ->
    exists pr, get_taa (after es) q = Ok (option_map Str (taa_in m q), pr) /\
      match pr with
      | Some p => In (ESig (p_sig p)) es /\ m_root (p_sig p) = p_root p /\ client_check H limit p key (m key) = Ok true
      | None => True
      end.
  Proof.
    intros U NL Tg m key K Kd Sp.
    assert (W : forall r pr, good_proof H limit msig m_root es r key (m key) pr ->
        match pr with
        | Some p => In (ESig (p_sig p)) es /\ m_root (p_sig p) = p_root p /\ client_check H limit p key (m key) = Ok true
        | None => True
        end).
    { intros r [p|]; cbn [good_proof]; auto. intros (-> & A & B & C). auto. }
    destruct q as [v|d|t|]; cbn [Read_Model.get_taa Read_Spec.taa_in Read_Spec.taa_path] in *; subst key.
    - destruct (committed_known H Hlen limit msig es U) as (h & Eh & Kh).
      destruct (read_known H Hlen limit msig m_root es h _ _ None U K Kh Sp Eh) as (_ & pr & B & C). rewrite B. cbn [bind].
      exists pr. split; [|eapply W; exact C]. apply (return_taa_known es h _ _ pr None U Kh Eh Kd).
    - destruct (committed_known H Hlen limit msig es U) as (h & Eh & Kh).
      destruct (read_known H Hlen limit msig m_root es h _ _ None U K Kh Sp Eh) as (_ & pr & B & C). rewrite B. cbn [bind].
      exists pr. split; [reflexivity|eapply W; exact C].
    - rewrite (ts_read H limit msig es t U NL Tg). subst m. unfold content_at in *.
      destruct (last_until t (commits 0 es)) as [[t' i]|] eqn:El; cbn [option_map snd]; [|exists None; split; [reflexivity|exact I]].
      destruct (last_until_in _ _ _ El) as [Hin _].
      pose proof (commits_bound limit msig es (proj1 U)) as B. rewrite Forall_forall in B. specialize (B _ Hin). cbn [snd] in B.
      pose proof (past_known H Hlen limit msig es i U B) as Kh.
      destruct (known_len H Hlen _ _ _ Kh) as (b & h' & Eh).
      assert (Eh' : match Some (root_after H limit (ops_of es) i) with
                    | Some (b :: h') => Ok (b :: h') | _ => committed_hash (n_trie (after es)) end
                    = Ok (root_after H limit (ops_of es) i)) by (rewrite Eh; reflexivity).
      destruct (read_known H Hlen limit msig m_root es _ _ _ (Some (root_after H limit (ops_of es) i)) U K Kh Sp Eh') as (_ & pr & A & C).
      rewrite A. cbn [bind]. exists pr. split; [|eapply W; exact C].
      apply (return_taa_known es _ _ _ pr (Some (root_after H limit (ops_of es) i)) U Kh Eh' Kd).
    - destruct (committed_known H Hlen limit msig es U) as (h & Eh & Kh).
      destruct (read_known H Hlen limit msig m_root es h _ _ None U K Kh Sp Eh) as (_ & pr & B & C). rewrite B. cbn [bind].
      exists pr. split; [|eapply W; exact C]. apply (return_taa_known es h _ _ pr None U Kh Eh Kd).
  Qed.
End Props.

(** ** Examples, with the toy hash of State_Props.v. A multi-signature is its root. *)
Definition ex_key : bytes := [1; 35]%N.
Definition sig_of (ops : list op) (i : nat) : event bytes := ESig (root_after toy 100 ops i).

(** Two batches, a later change not committed, a read in between. *)
Definition ex_base : list (event bytes) :=
  [EOp (OSet ex_key [1]%N); EBatch 1 10; EOp (OSet ex_key [2]%N); EOp (OSet [2]%N (long 3)); EBatch 4 20; EOp (OSet ex_key [9]%N)].
Definition ex_hist : list (event bytes) := ex_base ++ [sig_of (ops_of ex_base) 1; sig_of (ops_of ex_base) 4].

Example ex_hist_usable : usable toy 100 (ops_of ex_hist).
Proof.
  apply runs_well_ok; [|vm_compute; reflexivity].
  unfold ex_hist, ex_base, ex_key, long. cbn [ops_of app fold_left ops_of_event length ops_ok op_ok repeat sig_of].
  repeat split; try lia; try (repeat constructor; lia); vm_compute; reflexivity.
Qed.
Example ex_hist_ok : no_loss ex_hist /\ times_grow ex_hist /\ key_ok 100 ex_key.
Proof.
  split; [|split].
  - intros i t Hi. unfold ex_hist, ex_base, sig_of in Hi. cbn [app In] in Hi. repeat (destruct Hi as [Hi|Hi]; [discriminate Hi|]). exact Hi.
  - unfold times_grow. change (map fst (commits 0 ex_hist)) with [10; 20]. repeat constructor.
  - split; [repeat constructor|cbn; lia].
Qed.
Example ex_reads :
  get_value_from_state toy 100 (fun m => m) (after toy 100 ex_hist) ex_key None false = Ok (Some (Str [2]%N), None) /\
  (exists p, get_value_from_state toy 100 (fun m => m) (after toy 100 ex_hist) ex_key None true = Ok (Some (Str [2]%N), Some p) /\
     client_check toy 100 p ex_key (Some [2]%N) = Ok true /\ client_check toy 100 p ex_key (Some [1]%N) <> Ok true) /\
  (exists p, get_value_at toy 100 (fun m => m) (after toy 100 ex_hist) ex_key 15 = Ok (Some (Str [1]%N), Some p) /\
     client_check toy 100 p ex_key (Some [1]%N) = Ok true) /\
  get_value_at toy 100 (fun m => m) (after toy 100 ex_hist) ex_key 9 = Ok (None, None) /\
  map (fun t => content_at ex_hist t ex_key) [9; 10; 15; 19; 20; 30] = [None; Some [1]; Some [1]; Some [1]; Some [2]; Some [2]]%N.
Proof.
  split; [vm_compute; reflexivity|]. split.
  { eexists. split; [vm_compute; reflexivity|]. split; [vm_compute; reflexivity|vm_compute; discriminate]. }
  split; [eexists; split; [vm_compute; reflexivity|vm_compute; reflexivity]|]. split; vm_compute; reflexivity.
Qed.
(** all roots at which the node can make a proof *)
Definition short_proofsb (n : node bytes) (key : bytes) : bool :=
  forallb (fun h => match hash_to_node toy (n_trie n) h with
                    | Ok node => match generate_state_proof 100 (n_trie n) node key with
                                 | Ok (nodes, _) => match serialize_proof nodes with Ok _ => true | Err _ => false end
                                 | Err _ => true
                                 end
                    | Err _ => true
                    end) ([] :: BLANK_ROOT toy :: map fst (t_kv (n_trie n))).
Lemma kv_get_in d k v : kv_get d k = Ok v -> In k (map fst d).
Proof.
  induction d as [|[k' v'] d IH]; cbn [kv_get]; [discriminate|]. destruct (bytes_eqb k' k) eqn:E; [|intros X; right; auto].
  apply bytes_eqb_eq in E. left. exact E.
Qed.
Lemma short_proofsb_ok n key : short_proofsb n key = true -> short_proofs toy 100 bytes n key.
Proof.
  unfold short_proofsb, short_proofs. rewrite forallb_forall. intros F h node nodes v Eh Eg.
  assert (Hin : In h ([] :: BLANK_ROOT toy :: map fst (t_kv (n_trie n)))).
  { unfold hash_to_node in Eh. destruct (bytes_eqb h (BLANK_ROOT toy)) eqn:Eb.
    - apply bytes_eqb_eq in Eb. right. left. congruence.
    - destruct h as [|b h]; [left; reflexivity|]. right. right. unfold decode_to_node in Eh. cbn [bind] in Eh.
      destruct (kv_get (t_kv (n_trie n)) (b :: h)) as [x|] eqn:Ek; [eapply kv_get_in; eauto|].
      cbn in Eh. discriminate. }
  specialize (F h Hin). rewrite Eh, Eg in F. destruct (serialize_proof nodes) as [b|]; [eauto|discriminate].
Qed.
Example ex_short : short_proofs toy 100 bytes (after toy 100 ex_hist) ex_key.
Proof. apply short_proofsb_ok. vm_compute. reflexivity. Qed.

(** ** What does not hold *)
(** If the process dies after committing a batch but before remembering its time, a read at a later
    time gives the old value, with a proof which clients accept.  Nothing repairs this after a
    restart. *)
Definition lost_base : list (event bytes) :=
  [EOp (OSet ex_key [1]%N); EBatch 1 10; EOp (OSet ex_key [2]%N); ELost 3 20].
Definition lost_hist : list (event bytes) := lost_base ++ [sig_of (ops_of lost_base) 1; sig_of (ops_of lost_base) 3].
Theorem C68_lost_refuted : exists (es : list (event bytes)) key t p,
  usable toy 100 (ops_of es) /\ key_ok 100 key /\ times_grow es /\
  content_at es t key = Some [2]%N /\
  get_value_from_state toy 100 (fun m => m) (after toy 100 es) key None false = Ok (Some (Str [2]%N), None) /\
  get_value_at toy 100 (fun m => m) (after toy 100 es) key t = Ok (Some (Str [1]%N), Some p) /\
  client_check toy 100 p key (Some [1]%N) = Ok true.
Proof.
  exists lost_hist, ex_key, 30. eexists.
  split.
  { apply runs_well_ok; [|vm_compute; reflexivity].
    unfold lost_hist, lost_base, ex_key. cbn [ops_of app fold_left ops_of_event length ops_ok op_ok sig_of].
    repeat split; try lia; try (repeat constructor; lia); vm_compute; reflexivity. }
  split; [exact (proj2 (proj2 ex_hist_ok))|].
  split; [unfold times_grow; change (map fst (commits 0 lost_hist)) with [10; 20]; repeat constructor|].
  split; [vm_compute; reflexivity|]. split; [vm_compute; reflexivity|]. split; [vm_compute; reflexivity|vm_compute; reflexivity].
Qed.

(** The state which the genesis transactions made is not found at any time, though it is what a
    read now gives. *)
Theorem C68_genesis_refuted : exists (es : list (event bytes)) key v,
  usable toy 100 (ops_of es) /\ no_loss es /\
  get_value_from_state toy 100 (fun m => m) (after toy 100 es) key None false = Ok (Some (Str v), None) /\
  forall t, get_value_at toy 100 (fun m => m) (after toy 100 es) key t = Ok (None, None).
Proof.
  exists [EOp (OSet ex_key [1]%N); ECaught None], ex_key, [1]%N.
  split.
  { apply runs_well_ok; [|vm_compute; reflexivity].
    unfold ex_key. cbn [ops_of app fold_left ops_of_event length ops_ok op_ok].
    repeat split; try lia; try (repeat constructor; lia); vm_compute; reflexivity. }
  split; [intros i t [E|[E|[]]]; discriminate E|]. split; [vm_compute; reflexivity|]. intros t. reflexivity.
Qed.

(** If times went back, a read at a time would give the older content of the two. *)
Theorem C68_order_refuted : exists (es : list (event bytes)) key t v,
  usable toy 100 (ops_of es) /\ no_loss es /\ content_at es t key = Some [2]%N /\ v <> [2]%N /\
  get_value_at toy 100 (fun m => m) (after toy 100 es) key t = Ok (Some (Str v), None).
Proof.
  exists [EOp (OSet ex_key [1]%N); EBatch 1 20; EOp (OSet ex_key [2]%N); EBatch 3 10], ex_key, 30, [1]%N.
  split.
  { apply runs_well_ok; [|vm_compute; reflexivity].
    unfold ex_key. cbn [ops_of app fold_left ops_of_event length ops_ok op_ok].
    repeat split; try lia; try (repeat constructor; lia); vm_compute; reflexivity. }
  split; [intros i t [E|[E|[E|[E|[]]]]]; discriminate E|]. split; [vm_compute; reflexivity|]. split; [discriminate|].
  vm_compute. reflexivity.
Qed.

(** The agreement: its text is found by version, as the latest, and as the latest at a time. *)
Definition pv (b : bytes) : bytes := 118%N :: b.
Definition pd (b : bytes) : bytes := 100%N :: b.
Definition pl : bytes := [108]%N.
Definition taa_base : list (event bytes) :=
  [EOp (OSet (pd [1]%N) [11]%N); EOp (OSet (pv [5]%N) [1]%N); EOp (OSet pl [1]%N); EBatch 3 10;
   EOp (OSet (pd [2]%N) [12]%N); EOp (OSet (pv [6]%N) [2]%N); EOp (OSet pl [2]%N); ECaught (Some 20)].
Example ex_taa :
  map (fun q => match get_taa toy 100 (fun m => m) pv pd pl (after toy 100 taa_base) q with Ok (v, _) => v | Err _ => None end)
      [QVersion [5]; QDigest [2]; QLatest; QVersion [7]]%N
    = [Some (Str [11]); Some (Str [12]); Some (Str [12]); None]%N /\
  map (fun t => match get_taa toy 100 (fun m => m) pv pd pl (after toy 100 taa_base) (QTime t) with Ok (v, _) => v | Err _ => None end)
      [9; 10; 19; 20] = [None; Some (Str [11]); Some (Str [11]); Some (Str [12])]%N.
Proof. split; vm_compute; reflexivity. Qed.

Print Assumptions C68_now.
Print Assumptions C68_at_time_partial.
Print Assumptions C68_accepted.
Print Assumptions C68_taa_partial.
Print Assumptions C68_lost_refuted.
Print Assumptions C68_genesis_refuted.
Print Assumptions C68_order_refuted.
