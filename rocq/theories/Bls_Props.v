(** C67: multi-signatures over states. *)
From Coq Require Import List Arith Bool Lia.
From Verif Require Import Quorum_Model Dict Bls_Model Bls_Spec Bls_Proofs.
From Verif Require Base Audit_Model.
Import ListNotations.

Section Props.
  Context {vk sig msig : Type}.
  (** the signature scheme, the keys of pool states, Python's [int] and [str] *)
  Variable verify : sig -> value -> vk -> bool.
  Variable aggregate : list sig -> msig.
  Variable verify_multi : msig -> value -> list vk -> bool.
  Variable keys : root -> option (name -> option vk).
  Variables int_of str_of : nat -> nat.
  Hypothesis int_str : forall n, int_of (str_of n) = n.
  Variable cfg : config.
  (** what the replica has for each batch: PrePrepare and audit transaction *)
  Variable ppof : key -> pre_prepare msig.
  Variable txn : key -> option audit_txn.
  Hypothesis states_nodup : forall k t, txn k = Some t -> NoDup (map fst (a_states t)).
  (** a history that fits to them, in which the replica signs with its key of the pool state *)
  Variable es : list (event sig msig).
  Hypothesis es_fits : forall e, In e es -> fits ppof txn e.
  Hypothesis es_own : own_key verify keys (me cfg) es.
  Notation run := (run verify aggregate verify_multi keys int_of str_of cfg).

  (** Every multi-signature that a replica makes is made from signatures of a quorum of different
      nodes, each sent by its node for this batch and correct for the value under the node's key
      in the pool state of the batch; the value has the roots of the audit transaction.  Needs
      [es_own]: see C67_key_change_refuted.  Not for those it takes over: C67_shared_refuted. *)
  Theorem C67_sound_partial st o pp m : run init es = Ok (st, o) -> In (OMulti pp m) o ->
    exists t lid sigs, txn (pp_key pp) = Some t /\ value_of t pp lid (ms_value m) /\
      NoDup (ms_parts m) /\ bls_signatures (quo cfg) <= length (ms_parts m) /\ ms_sig m = aggregate sigs /\
      Forall2 (fun x s => (exists txt, sent_by (me cfg) es (pp_key pp) x txt s) /\ signed_by verify keys x s (ms_value m)) (ms_parts m) sigs.
  Proof.
    intros E I0.
    destruct (proj1 (run_sound verify aggregate verify_multi keys int_of str_of int_str cfg ppof txn states_nodup es es_fits es_own st o E) pp m I0)
      as (t & sd & txt & A & _ & B & C & D & F & G).
    exists t, (int_of txt), (map snd sd). rewrite F at 2 3 4 5. cbn [ms_parts ms_sig single]. rewrite map_length. repeat split; auto.
    clear -G. induction sd as [|(x, s) sd IH]; simpl; constructor.
    - destruct (G x s (or_introl eq_refl)) as (G1 & G2). split; [exists txt; exact G1|exact G2].
    - apply IH. intros x' s' X. apply G. right. exact X.
  Qed.

  (** With at most f faulty nodes among n, more than f of the signers are correct. *)
  Theorem C67_correct_signers st o pp m faulty n : run init es = Ok (st, o) -> In (OMulti pp m) o ->
    1 <= n -> quo cfg = Quorums n -> length faulty <= getMaxFailures n ->
    exists l, NoDup l /\ incl l (ms_parts m) /\ (forall x, In x l -> ~ In x faulty) /\ getMaxFailures n < length l.
  Proof.
    intros E I0 Hn Q Hf. destruct (C67_sound_partial st o pp m E I0) as (t & lid & sigs & _ & _ & Nd & Le & _).
    rewrite Q in Le. cbn [bls_signatures Quorums] in Le.
    set (P := fun x => negb (existsb (Nat.eqb x) faulty)).
    exists (filter P (ms_parts m)). split; [apply NoDup_filter; exact Nd|]. split; [intros x X; apply filter_In in X; apply X|].
    split.
    - intros x X F. apply filter_In in X as (_ & X). unfold P in X. apply negb_true_iff in X. apply Dict.mem_in in F. congruence.
    - assert (L : length (filter (fun x => negb (P x)) (ms_parts m)) <= length faulty).
      { apply NoDup_incl_length; [apply NoDup_filter; exact Nd|]. intros x X. apply filter_In in X as (_ & X).
        unfold P in X. rewrite negb_involutive in X. apply Dict.mem_in in X. exact X. }
      assert (S0 : length (filter P (ms_parts m)) + length (filter (fun x => negb (P x)) (ms_parts m)) = length (ms_parts m)).
      { clear. induction (ms_parts m) as [|x l IH]; simpl; [reflexivity|]. destruct (P x); simpl; lia. }
      assert (F3 : 3 * getMaxFailures n < n).
      { unfold getMaxFailures. destruct (4 <=? n) eqn:C; [|lia]. apply Nat.leb_le in C. pose proof (Nat.div_mod (n - 1) 3). lia. }
      change name with nat in *. lia.
  Qed.

  (** Any replica with the same pool states accepts the multi-signatures that a replica makes, and
      a PrePrepare in which it puts them. *)
  Theorem C67_accepted_partial st o : scheme_ok verify aggregate verify_multi -> 1 <= bls_signatures (quo cfg) ->
    run init es = Ok (st, o) ->
    (forall pp m, In (OMulti pp m) o -> validate_multi_sig verify_multi keys m = Ok true) /\
    (forall l v s tm pool, In (OSent l) o -> validate_pre_prepare verify_multi keys (PrePrepare v s tm pool (Some l)) = Ok true).
  Proof.
    intros Sc Q E. destruct (run_sound verify aggregate verify_multi keys int_of str_of int_str cfg ppof txn states_nodup es es_fits es_own st o E) as (A & B).
    assert (C : forall pp m, In (OMulti pp m) o -> validate_multi_sig verify_multi keys m = Ok true).
    { intros pp m I0. apply (sound_valid verify aggregate verify_multi keys int_of cfg ppof txn es pp m Sc Q (A pp m I0)). }
    split; [exact C|]. intros l v s tm pool I0. apply all_valid_ok. intros m Im. destruct (B l m I0 Im) as (pp & X). exact (C pp m X).
  Qed.

  (** What is stored under a root is for this root; the replica made it, or took it over from a
      PrePrepare in which it verified. *)
  Theorem C67_store st o r m : run init es = Ok (st, o) -> get r (b_store st) = Some m ->
    v_state (ms_value m) = r /\
    ((exists pp, In (OMulti pp m) o) \/
     (validate_multi_sig verify_multi keys m = Ok true /\ exists pp ms, In (EPrePrepare pp true) es /\ pp_multi pp = Some ms /\ In m ms)).
  Proof.
    intros E G. pose proof (run_inv verify aggregate verify_multi keys int_of str_of int_str cfg ppof txn states_nodup es es_fits es_own st o E) as Iv.
    destruct (i_store _ _ _ _ _ _ _ _ _ Iv r m G) as (A & [B|B]); (split; [exact A|]); [left; exact B|right].
    exact (shared_valid verify aggregate verify_multi keys int_of str_of cfg es st o m E B).
  Qed.

  (** When good signatures of a quorum came in before the batch is ordered, the master replica
      makes, for every ledger whose state root the audit transaction has, a multi-signature of all
      these nodes, and a multi-signature for this root is stored.  Needs [usual]: see
      C67_blocked_refuted. *)
  Theorem C67_complete_partial k t audit pp signers st o :
    txn k = Some t -> usual str_of k (map fst (a_states t)) es -> pending k es ->
    fits ppof txn (EOrder audit pp : event sig msig) -> pp_key pp = k -> well_founded keys audit pp -> master cfg = true ->
    NoDup signers -> bls_signatures (quo cfg) <= length signers -> signers <> [] ->
    (forall x, In x signers -> gave verify keys int_of (me cfg) k t es x) ->
    run init es = Ok (st, o) ->
    exists st' o', run init (es ++ [EOrder audit pp]) = Ok (st', o') /\
      forall lid r, get lid (a_states t) = Some r ->
        (exists m, In (OMulti pp m) o' /\ v_ledger (ms_value m) = lid /\ v_state (ms_value m) = r /\ incl signers (ms_parts m)) /\
        exists m', get r (b_store st') = Some m' /\ v_state (ms_value m') = r.
  Proof.
    intros Tk Us Pe Fo Ek Wf Ma Nd Q Ne Sg E.
    destruct (run_complete verify aggregate verify_multi keys int_of str_of int_str cfg ppof txn states_nodup k t Tk es audit pp signers
      es_fits es_own Us Pe Fo Ek Wf Ma Nd Q Ne Sg st o E) as (st' & l & A & B).
    exists st', (o ++ map (OMulti pp) l). split; [exact A|]. intros lid r G. destruct (B lid r G) as (m & M1 & M2 & M3 & M4 & M5).
    split; [|exact M5]. exists m. split; [|auto]. apply in_or_app. right. apply in_map. exact M1.
  Qed.

  (** No message makes the replica raise an exception, if the pool states named exist, PrePrepares
      name one, and audit transactions are regular (C67_audit_regular).  Without that:
      C67_no_pool_root_refuted, C67_unknown_root_refuted, C67_backup_refuted. *)
  Theorem C67_no_exception_partial : (forall e, In e es -> tame keys e) -> exists st o, run init es = Ok (st, o).
  Proof.
    intros Ta. apply (run_not_raises verify aggregate verify_multi keys int_of str_of int_str cfg ppof txn states_nodup es); [|exact es_own].
    intros e X. split; [exact (es_fits e X)|exact (Ta e X)].
  Qed.
End Props.

(** The cache of the key register: after any questions about pool states that exist, it answers
    as if it looked into the pool state. *)
Section Cache.
  Context {vk : Type}.
  Variable decode : nat -> option vk.
  Variable pool_state : root -> option (list node_data).
  Fixpoint asked (without_proof : bool) (r : register vk) (l : list (name * root)) : register vk :=
    match l with
    | [] => r
    | (x, pool) :: l' => asked without_proof (fst (get_key decode pool_state without_proof r x pool)) l'
    end.
  Theorem C67_cache_partial wp l x pool : (forall y p, In (y, p) l -> pool_state p <> None) ->
    snd (get_key decode pool_state wp (asked wp no_keys l) x pool) =
      match keys_of decode pool_state wp pool with None => Raise | Some reg => Ok (reg x) end.
  Proof.
    assert (G : forall l r, (forall p, r_root r = Some p -> exists s, pool_state p = Some s /\ r_keys r = load_keys decode wp s) ->
      (forall y p, In (y, p) l -> pool_state p <> None) ->
      forall p, r_root (asked wp r l) = Some p -> exists s, pool_state p = Some s /\ r_keys (asked wp r l) = load_keys decode wp s).
    { clear. induction l as [|(y, q) l IH]; intros r Hr Hl; simpl; [exact Hr|]. apply IH; [|intros y' p' X; apply (Hl y' p'); right; exact X].
      unfold get_key. destruct (match r_root r with Some p => p =? q | None => false end) eqn:E; [exact Hr|].
      destruct (pool_state q) as [s|] eqn:P; [|destruct (Hl y q (or_introl eq_refl) P)].
      intros p X. cbn in X. injection X as <-. exists s. auto. }
    intros Hl. specialize (G l no_keys ltac:(discriminate) Hl). set (r := asked wp no_keys l) in *. clearbody r.
    unfold get_key, keys_of. destruct (r_root r) as [p|] eqn:E.
    - destruct (G p eq_refl) as (s & S1 & S2). destruct (Nat.eqb_spec p pool) as [<-|N].
      + rewrite S1, S2. reflexivity.
      + destruct (pool_state pool); reflexivity.
    - destruct (pool_state pool); reflexivity.
  Qed.
  (** as [load_keys], starting from [d] *)
  Definition load_keys_from (wp : bool) (l : list node_data) (d : dict (option vk)) : dict (option vk) :=
    fold_left (fun d n =>
      match bls_key n with
      | None => d
      | Some k =>
          if negb wp && match bls_proof n with None => true | _ => false end then set (alias n) None d
          else set (alias n) (decode k) d
      end) l d.
  (** What the register says is what the pool state has: the key of the node with that alias, if it
      has one, with a proof of possession unless keys without one are allowed. *)
  Theorem C67_keys wp pool l x : pool_state pool = Some l -> NoDup (map alias l) ->
    exists reg, keys_of decode pool_state wp pool = Some reg /\
      forall k, reg x = Some k <-> exists n b, In n l /\ alias n = x /\ bls_key n = Some b /\ decode b = Some k /\
                                              (wp = true \/ bls_proof n <> None).
  Proof.
    intros Ep Nd. unfold keys_of. rewrite Ep. eexists. split; [reflexivity|]. intros k. cbn beta.
    assert (G : forall l d, NoDup (map alias l) ->
      (match get x (load_keys_from wp l d) with Some o => o | None => None end = Some k <->
       (exists n b, In n l /\ alias n = x /\ bls_key n = Some b /\ decode b = Some k /\ (wp = true \/ bls_proof n <> None)) \/
       ((forall n, In n l -> alias n = x -> bls_key n = None) /\ match get x d with Some o => o | None => None end = Some k))).
    { clear. induction l as [|n l IH]; intros d Nd; cbn [load_keys_from fold_left].
      - split; [intros E; right; split; [intros n []|exact E]|]. intros [(n & b & [] & _)|[_ E]]. exact E.
      - inversion Nd as [|? ? Hn Nd']; subst. unfold load_keys_from in IH. rewrite (IH _ Nd'). clear IH.
        set (d' := match bls_key n with None => d | Some b => _ end).
        assert (Hd : match get x d' with Some o => o | None => None end =
          if (alias n =? x) && match bls_key n with Some _ => true | None => false end
          then match bls_key n with
               | Some b => if negb wp && match bls_proof n with None => true | _ => false end then None else decode b
               | None => None end
          else match get x d with Some o => o | None => None end).
        { subst d'. destruct (bls_key n) as [b|]; [|rewrite andb_false_r; reflexivity]. rewrite andb_true_r.
          destruct (negb wp && _); rewrite get_set, (Nat.eqb_sym x); destruct (alias n =? x); reflexivity. }
        rewrite Hd. clearbody d'. clear Hd.
        assert (Only : forall m, In m l -> alias m = x -> alias n <> x)
          by (intros m Hm Em En; apply Hn; rewrite En, <- Em; apply in_map; exact Hm).
        split.
        + intros [(m & b & Hm & R)|[Hno E]]; [left; exists m, b; split; [right; exact Hm|exact R]|].
          destruct (Nat.eqb_spec (alias n) x) as [En|En]; cbn [andb] in E.
          * destruct (bls_key n) as [b|] eqn:Eb; [|right; split; [intros m [<-|Hm] Em; [exact Eb|exact (Hno m Hm Em)]|exact E]].
            left. exists n, b. split; [left; reflexivity|]. split; [exact En|]. split; [exact Eb|].
            destruct wp; cbn [negb andb] in E; [split; [exact E|left; reflexivity]|].
            destruct (bls_proof n); [|discriminate]. split; [exact E|right; discriminate].
          * right. split; [intros m [<-|Hm] Em; [contradiction|exact (Hno m Hm Em)]|exact E].
        + intros [(m & b & [<-|Hm] & Em & Eb & Ed & Ew)|[Hno E]].
          * right. split; [intros m Hm Em'; destruct (Only m Hm Em' Em)|].
            rewrite Em, Nat.eqb_refl, Eb. cbn [andb].
            destruct Ew as [-> | Ew]; [cbn [negb andb]; exact Ed|]. destruct (bls_proof n); [|congruence].
            rewrite andb_false_r. exact Ed.
          * left. exists m, b. auto.
          * right. split; [intros m Hm; apply Hno; right; exact Hm|].
            destruct (Nat.eqb_spec (alias n) x) as [En|En]; cbn [andb]; [|exact E].
            rewrite (Hno n (or_introl eq_refl) En). exact E. }
    specialize (G l [] Nd). unfold load_keys_from in G. unfold load_keys. rewrite G. cbn [get]. split; [|auto].
    intros [X|[_ X]]; [exact X|discriminate].
  Qed.
End Cache.

(** The audit transaction used for a batch is the one with its number. *)
Theorem C67_audit_for {msig} audit (pp : pre_prepare msig) t : NoDup (map a_seq audit) ->
  audit_for audit pp = Some t <-> In t audit /\ a_seq t = pp_seq pp.
Proof.
  intros Nd. unfold audit_for. split.
  - intros E. apply find_some in E as [A B]. apply in_rev in A. apply Nat.eqb_eq in B. auto.
  - intros [A B]. destruct (find _ (rev audit)) as [t'|] eqn:E.
    + apply find_some in E as [A' B']. apply in_rev in A'. apply Nat.eqb_eq in B'. f_equal.
      clear -Nd A A' B B'. induction audit as [|a l IH]; [destruct A|]. inversion Nd as [|? ? Hn Nd']; subst.
      destruct A as [<-|A], A' as [<-|A']; auto.
      * destruct Hn. rewrite B, B'. apply in_map. exact A'.
      * destruct Hn. rewrite <- B', <- B. apply in_map. exact A.
    + apply in_rev in A. apply (find_none _ _ E) in A. rewrite B, Nat.eqb_refl in A. discriminate.
Qed.

(** Audit transactions are regular, if the first one is: what the handler of C41 writes. *)
Definition audit_of (code : Base.bytes -> nat) (a : Audit_Model.adata) : audit_txn :=
  Audit (Audit_Model.a_seq a) (map (fun x => (fst x, code (snd x))) (Audit_Model.a_state a))
    (map (fun x => (fst x, match snd x with Audit_Model.Val h => Hash (code h) | Audit_Model.Back n => Delta n end)) (Audit_Model.a_root a)).

Definition reg (a : Audit_Model.adata) : Prop := forall lid h, get lid (Audit_Model.a_state a) = Some h ->
  exists r, get lid (Audit_Model.a_root a) = Some (Audit_Model.Val r).
Lemma get_map {A B} (f : A -> B) l (d : dict A) : get l (map (fun x => (fst x, f (snd x))) d) = option_map f (get l d).
Proof. induction d as [|(k, v) d IH]; simpl; [reflexivity|]. destruct (l =? k); [reflexivity|exact IH]. Qed.
Lemma reg_regular code a : regular (audit_of code a) <-> reg a.
Proof.
  unfold regular, reg. cbn [a_states a_ledgers audit_of]. split; intros R lid x G.
  - destruct (R lid (code x)) as (h & Hh); [rewrite get_map, G; reflexivity|].
    rewrite (get_map (fun e => match e with Audit_Model.Val h => Hash (code h) | Audit_Model.Back n => Delta n end)) in Hh.
    destruct (get lid (Audit_Model.a_root a)) as [[v|n]|]; cbn in Hh; try discriminate. exists v. reflexivity.
  - rewrite get_map in G. destruct (get lid (Audit_Model.a_state a)) as [b|] eqn:E; [|discriminate].
    destruct (R _ _ E) as (v & V). exists (code v).
    rewrite (get_map (fun e => match e with Audit_Model.Val h => Hash (code h) | Audit_Model.Back n => Delta n end)), V. reflexivity.
Qed.

Lemma fill_one root lid v last b a a' : Audit_Model.fill_ledger_root_hash root lid v last b a = Base.Ok a' ->
  (forall l, l <> lid -> get l (Audit_Model.a_state a') = get l (Audit_Model.a_state a) /\ get l (Audit_Model.a_root a') = get l (Audit_Model.a_root a)) /\
  (get lid (Audit_Model.a_state a) = None -> forall h, get lid (Audit_Model.a_state a') = Some h -> exists r, get lid (Audit_Model.a_root a') = Some (Audit_Model.Val r)).
Proof.
  assert (W : forall a', Audit_Model.write_roots root lid v a = Base.Ok a' ->
    (forall l, l <> lid -> get l (Audit_Model.a_state a') = get l (Audit_Model.a_state a) /\ get l (Audit_Model.a_root a') = get l (Audit_Model.a_root a)) /\
    (get lid (Audit_Model.a_state a) = None -> forall h, get lid (Audit_Model.a_state a') = Some h -> exists r, get lid (Audit_Model.a_root a') = Some (Audit_Model.Val r))).
  { intros a1 E. unfold Audit_Model.write_roots in E. destruct (Audit_Model.lv_state v) as [h|]; [|discriminate]. injection E as <-.
    cbn [Audit_Model.a_state Audit_Model.a_root]. split.
    - intros l N. rewrite !get_set. destruct (Nat.eqb_spec l lid); [congruence|]. auto.
    - intros _ h' _. rewrite get_set, Nat.eqb_refl. eexists. reflexivity. }
  assert (R : forall x, (forall l, l <> lid -> get l (Audit_Model.a_state (Audit_Model.set_root lid x a)) = get l (Audit_Model.a_state a) /\ get l (Audit_Model.a_root (Audit_Model.set_root lid x a)) = get l (Audit_Model.a_root a)) /\
    (get lid (Audit_Model.a_state a) = None -> forall h, get lid (Audit_Model.a_state (Audit_Model.set_root lid x a)) = Some h -> exists r, get lid (Audit_Model.a_root (Audit_Model.set_root lid x a)) = Some (Audit_Model.Val r))).
  { intros x. cbn [Audit_Model.a_state Audit_Model.a_root Audit_Model.set_root]. split.
    - intros l N. rewrite !get_set. destruct (Nat.eqb_spec l lid); [congruence|]. auto.
    - intros N h G. congruence. }
  assert (I0 : (forall l, l <> lid -> get l (Audit_Model.a_state a) = get l (Audit_Model.a_state a) /\ get l (Audit_Model.a_root a) = get l (Audit_Model.a_root a)) /\
    (get lid (Audit_Model.a_state a) = None -> forall h, get lid (Audit_Model.a_state a) = Some h -> exists r, get lid (Audit_Model.a_root a) = Some (Audit_Model.Val r))).
  { split; [auto|]. intros N h G. congruence. }
  unfold Audit_Model.fill_ledger_root_hash. intros E.
  destruct (lid =? Audit_Model.b_ledger b); [exact (W _ E)|]. destruct last as [l|].
  - destruct (get lid (Audit_Model.a_size l)) as [n0|].
    + destruct (n0 <? Audit_Model.lv_size v); [exact (W _ E)|].
      destruct (get lid (Audit_Model.a_root l)) as [[x|n]|]; injection E as <-; [apply R|apply R|exact I0].
    + destruct (negb (Audit_Model.lv_unc v =? 0)); [exact (W _ E)|].
      destruct (get lid (Audit_Model.a_root l)) as [[x|n]|]; injection E as <-; [apply R|apply R|exact I0].
  - destruct (negb (Audit_Model.lv_size v =? 0)); [exact (W _ E)|]. injection E as <-. exact I0.
Qed.

Lemma fill_reg root frozen last b ls : forall a a', NoDup (map fst ls) -> reg a ->
  (forall lid, In lid (map fst ls) -> get lid (Audit_Model.a_state a) = None) ->
  (forall lid, get lid frozen <> None -> get lid (Audit_Model.a_state a) = None) ->
  Audit_Model.fill_ledgers root ls frozen last b a = Base.Ok a' ->
  reg a' /\ (forall lid, get lid frozen <> None -> get lid (Audit_Model.a_state a') = None).
Proof.
  induction ls as [|(lid, v) ls IH]; intros a a' Nd R0 N0 F0 E; cbn [Audit_Model.fill_ledgers] in E; [injection E as <-; auto|].
  inversion_clear Nd as [|? ? Nl Nd'].
  destruct ((lid =? Audit_Model.AUDIT_LEDGER_ID) || (if get lid frozen then true else false)) eqn:C.
  - apply (IH a a'); auto. intros l X. apply N0. right. exact X.
  - apply orb_false_iff in C as (_ & C). destruct (get lid frozen) eqn:Ef; [discriminate|].
    destruct (Audit_Model.fill_ledger_root_hash root lid v last b (Audit_Model.set_size lid (Audit_Model.lv_size v) a)) as [a1|] eqn:E1;
      cbn in E; [|discriminate].
    destruct (fill_one _ _ _ _ _ _ _ E1) as (O1 & O2). cbn [Audit_Model.set_size Audit_Model.a_state Audit_Model.a_root] in O1, O2.
    apply (IH a1 a'); auto.
    + intros l h G. destruct (Nat.eq_dec l lid) as [->|N].
      * apply (O2 (N0 lid (or_introl eq_refl)) h G).
      * destruct (O1 l N) as (A & B). rewrite A in G. rewrite B. apply (R0 _ _ G).
    + intros l X. assert (l <> lid) as N by (intros ->; contradiction). rewrite (proj1 (O1 l N)). apply N0. right. exact X.
    + intros l X. assert (l <> lid) as N by (intros ->; congruence). rewrite (proj1 (O1 l N)). apply F0. exact X.
Qed.

Theorem C67_audit_regular code root last unc lookup e b a :
  NoDup (map fst (Audit_Model.e_ledgers e)) -> (forall l, last = Some l -> regular (audit_of code (snd l))) ->
  Audit_Model.create root last unc lookup e b = Base.Ok a -> regular (audit_of code a).
Proof.
  intros Nd Hl E. apply reg_regular. unfold Audit_Model.create in E.
  destruct (Audit_Model.fill_ledgers _ _ _ _ _ _) as [a1|] eqn:E1 in E; cbn in E; [|discriminate].
  destruct (Audit_Model.fill_primaries _ _ _ _) as [ps|] in E; cbn in E; [|discriminate].
  destruct (Audit_Model.fill_node_reg _ _ _ _) as [ng|] in E; cbn in E; [|discriminate]. injection E as <-.
  unfold reg. cbn [Audit_Model.a_state Audit_Model.a_root].
  assert (X : reg a1 /\ forall lid, get lid (Audit_Model.e_frozen e) <> None -> get lid (Audit_Model.a_state a1) = None).
  { eapply fill_reg; [exact Nd| | | |exact E1]; [intros ? ? X; discriminate X|reflexivity|reflexivity]. }
  destruct X as (R1 & F1).
  destruct last as [(sq, l)|]; cbn [option_map snd fst Audit_Model.fill_frozen]; [|exact R1].
  assert (Rl : reg l) by (apply (reg_regular code), (Hl (sq, l) eq_refl)). clear Hl E1.
  assert (Q : forall fr a, reg a -> (forall lid, In lid (map fst fr) -> get lid (Audit_Model.a_state a) = None) ->
    reg (fold_left (fun a '(lid, seq_no) =>
        match get lid (Audit_Model.a_root l) with
        | Some (Audit_Model.Back n) =>
          let a := Audit_Model.set_root lid (Audit_Model.Back (n + 1)) (Audit_Model.set_size lid seq_no a) in
          match get lid (Audit_Model.a_state l) with Some h => Audit_Model.set_state lid h a | None => a end
        | _ => a
        end) fr a)).
  { induction fr as [|(lid, sn) fr IH]; intros a Ra Na; simpl; [exact Ra|].
    destruct (get lid (Audit_Model.a_root l)) as [[x|n]|] eqn:Er; try (apply IH; [exact Ra|intros l' X; apply Na; right; exact X]).
    destruct (get lid (Audit_Model.a_state l)) as [h|] eqn:Es; [destruct (Rl _ _ Es); congruence|].
    apply IH.
    - intros l' h G. cbn [Audit_Model.set_root Audit_Model.set_size Audit_Model.a_state Audit_Model.a_root] in *. rewrite get_set.
      destruct (Nat.eqb_spec l' lid) as [->|N]; [|apply (Ra _ _ G)]. rewrite (Na lid (or_introl eq_refl)) in G. discriminate G.
    - intros l' X. apply Na. right. exact X. }
  apply Q; [exact R1|]. intros lid X. apply F1. intros N. apply get_none in N. contradiction.
Qed.

(** * A concrete pool.
    Four nodes; node x has key 10 + x in pool state 7; in pool state 8 node 0 has key 20.  A
    signature is the key and the value, a multi-signature the list of signatures.  The text of
    ledger id n is 2 * n, and 2 * n + 1 is the text with a leading zero. *)
Module Inst.
  Definition value_eqb (v w : value) : bool :=
    (v_ledger v =? v_ledger w) && (v_state v =? v_state w) && (v_pool v =? v_pool w) && (v_txn v =? v_txn w) && (v_time v =? v_time w).
  Definition verify (s : nat * value) (v : value) (k : nat) : bool := (fst s =? k) && value_eqb (snd s) v.
  Fixpoint multi (m : list (nat * value)) (v : value) (ks : list nat) : bool :=
    match m, ks with
    | [], [] => true
    | s :: m', k :: ks' => verify s v k && multi m' v ks'
    | _, _ => false
    end.
  Definition verify_multi (m : list (nat * value)) (v : value) (ks : list nat) : bool :=
    match m with [] => false | _ => multi m v ks end.
  Definition aggregate (l : list (nat * value)) := l.
  Definition keys (p : root) : option (name -> option nat) :=
    if p =? 7 then Some (fun x => if x <? 4 then Some (10 + x) else None)
    else if p =? 8 then Some (fun x => if x =? 0 then Some 20 else if x <? 4 then Some (10 + x) else None)
    else None.
  Definition str_of (n : nat) := 2 * n.
  Definition int_of (t : nat) := Nat.div2 t.
  Definition cfg := Config 0 (Quorums 4) true.
  Notation event := (event (nat * value) (list (nat * value))).
  Notation state := (state (nat * value) (list (nat * value))).
  Definition run (es : list event) := run verify aggregate verify_multi keys int_of str_of cfg init es.
  Lemma int_str n : int_of (str_of n) = n.
  Proof. apply Nat.div2_double. Qed.
  Lemma scheme : scheme_ok verify aggregate verify_multi.
  Proof.
    intros sigs vks v N F. unfold verify_multi, aggregate. destruct sigs; [congruence|]. clear N.
    induction F as [|s k l l' A F IH]; [vm_compute; reflexivity|]. cbn [multi]. rewrite A. exact IH.
  Qed.

  (** batch (0, 1) changed ledgers 1 and 2 *)
  Definition t1 := Audit 1 [(1, 50); (2, 60)] [(1, Hash 51); (2, Hash 61); (0, Delta 1)].
  Definition pp1 : pre_prepare (list (nat * value)) := PrePrepare 0 1 5 (Val 7) None.
  Definition va := Value 1 50 7 51 5.
  Definition vb := Value 2 60 7 61 5.
  Definition commit1 (x : name) := Commit 0 1 (Some [(2, (10 + x, va)); (4, (10 + x, vb))]).
  Definition ppof (k : key) := PrePrepare (fst k) (snd k) 5 (Val 7) (@None (list (multi_sig (list (nat * value))))).
  Definition txn (k : key) := if snd k =? 1 then Some t1 else None.
  Definition es : list event :=
    [EOwn (Some (fun v => (10, v))) [t1] pp1; ECommit [t1] (commit1 1) 1 pp1; ECommit [t1] (commit1 2) 2 pp1].
  Lemma txn_nodup k t : txn k = Some t -> NoDup (map fst (a_states t)).
  Proof. unfold txn. destruct (snd k =? 1); intros E; [injection E as <-|discriminate]. repeat constructor; simpl; lia. Qed.
  Lemma es_fits e : In e es -> fits ppof txn e.
  Proof. intros [<-|[<-|[<-|[]]]]; cbn; auto. Qed.
  Lemma all_fits e : In e (es ++ [EOrder [t1] pp1; ESend]) -> fits ppof txn e.
  Proof. intros [<-|[<-|[<-|[<-|[<-|[]]]]]]; cbn; auto. Qed.
  Lemma vrefl v : verify (10, v) v 10 = true.
  Proof. unfold verify, value_eqb. cbn. rewrite !Nat.eqb_refl. reflexivity. Qed.
  Lemma es_own : own_key verify keys 0 es.
  Proof.
    intros sign audit pp v [X|[X|[X|[]]]] P; try discriminate X. injection X as <- <- <-. cbn in P. injection P as P.
    exists (fun x => if x <? 4 then Some (10 + x) else None), 10. rewrite <- P. split; [reflexivity|]. split; [reflexivity|]. apply vrefl.
  Qed.
  Lemma all_own : own_key verify keys 0 (es ++ [EOrder [t1] pp1; ESend]).
  Proof.
    intros sign audit pp v X P. apply in_app_or in X as [X|[X|[X|[]]]]; try discriminate X. exact (es_own sign audit pp v X P).
  Qed.
  Definition ma := MultiSig [(10, va); (11, va); (12, va)] [0; 1; 2] va.
  Definition mb := MultiSig [(10, vb); (11, vb); (12, vb)] [0; 1; 2] vb.

  (** two multi-signatures, one for each ledger, of nodes 0, 1, 2; the next PrePrepare has both *)
  Example made : exists st o, run (es ++ [EOrder [t1] pp1; ESend]) = Ok (st, o) /\ b_store st = [(50, ma); (60, mb)] /\
    In (OMulti pp1 ma) o /\ In (OMulti pp1 mb) o /\ In (OSent [ma; mb]) o.
  Proof.
    do 2 eexists. split; [vm_compute; reflexivity|]. split; [reflexivity|]. split; [right; left; reflexivity|].
    split; [right; right; left; reflexivity|]. right. right. right. left. reflexivity.
  Qed.
  Example C67_example : exists t lid sigs, txn (0, 1) = Some t /\ value_of t pp1 lid va /\
      NoDup [0; 1; 2] /\ bls_signatures (quo cfg) <= 3 /\ [(10, va); (11, va); (12, va)] = aggregate sigs /\
      Forall2 (fun x s => (exists txt, sent_by 0 (es ++ [EOrder [t1] pp1; ESend]) (0, 1) x txt s) /\ signed_by verify keys x s va) [0; 1; 2] sigs.
  Proof.
    destruct made as (st & o & E & _ & M & _).
    exact (C67_sound_partial verify aggregate verify_multi keys int_of str_of int_str cfg ppof txn txn_nodup _ all_fits all_own st o pp1 ma E M).
  Qed.
  Example C67_accepted_example : validate_pre_prepare verify_multi keys (PrePrepare 0 2 5 (Val 7) (Some [ma; mb])) = Ok true.
  Proof.
    destruct made as (st & o & E & _ & _ & _ & M).
    apply (proj2 (C67_accepted_partial verify aggregate verify_multi keys int_of str_of int_str cfg ppof txn txn_nodup _ all_fits all_own st o scheme (le_n_S _ _ (Nat.le_0_l 2)) E)).
    exact M.
  Qed.
  (** C67_complete_partial applies: nodes 0, 1 and 2 gave their signatures *)
  Example C67_complete_example : exists st' o', run (es ++ [EOrder [t1] pp1]) = Ok (st', o') /\
      forall lid r, get lid (a_states t1) = Some r ->
        (exists m, In (OMulti pp1 m) o' /\ v_ledger (ms_value m) = lid /\ v_state (ms_value m) = r /\ incl [0; 1; 2] (ms_parts m)) /\
        exists m', get r (b_store st') = Some m' /\ v_state (ms_value m') = r.
  Proof.
    destruct (run es) as [(st, o)|] eqn:E; [|discriminate E].
    apply (C67_complete_partial verify aggregate verify_multi keys int_of str_of int_str cfg ppof txn txn_nodup es es_fits es_own (0, 1) t1 [t1] pp1 [0; 1; 2] st o).
    - reflexivity.
    - intros audit c x pp l [X|[X|[X|[]]]] _ L; try discriminate X; injection X as <- <- <- <-; injection L as <-; intros txt; cbn; tauto.
    - split; [vm_compute; reflexivity|]. intros e [<-|[<-|[<-|[]]]]; exact I.
    - cbn. auto.
    - reflexivity.
    - intros t A. injection A as <-. split.
      + intros lid r G. cbn in G. destruct (lid =? 1) eqn:C1; [apply Nat.eqb_eq in C1 as ->; exists 51; reflexivity|].
        destruct (lid =? 2) eqn:C2; [apply Nat.eqb_eq in C2 as ->; exists 61; reflexivity|discriminate].
      + exists 7. split; [reflexivity|discriminate].
    - reflexivity.
    - repeat constructor; simpl; lia.
    - cbn. lia.
    - discriminate.
    - assert (G : forall x, (x = 1 \/ x = 2) -> forall txt s, In (txt, s) [(2, (10 + x, va)); (4, (10 + x, vb))] ->
        exists v, value_of t1 pp1 (int_of txt) v /\ signed_by verify keys x s v).
      { intros x Hx txt s [X|[X|[]]]; injection X as <- <-; [exists va|exists vb]; (split; [|exists (fun x => if x <? 4 then Some (10 + x) else None), (10 + x)]);
          try (destruct Hx as [-> | ->]; cbn; auto; fail); [exists 50, 51, 7|exists 60, 61, 7]; cbn; auto. }
      intros x [<-|[<-|[<-|[]]]].
      + right. split; [vm_compute; reflexivity|]. do 3 eexists. split; [left; reflexivity|reflexivity].
      + left. exists [t1], (commit1 1), pp1, [(2, (11, va)); (4, (11, vb))]. split; [right; left; reflexivity|]. split; [vm_compute; reflexivity|]. split; [vm_compute; reflexivity|].
        exact (G 1 (or_introl eq_refl)).
      + left. exists [t1], (commit1 2), pp1, [(2, (12, va)); (4, (12, vb))]. split; [right; right; left; reflexivity|]. split; [vm_compute; reflexivity|]. split; [vm_compute; reflexivity|].
        exact (G 2 (or_intror eq_refl)).
    - exact E.
  Qed.
  Example C67_no_exception_example : exists st o, run (es ++ [EOrder [t1] pp1; ESend]) = Ok (st, o).
  Proof.
    apply (C67_no_exception_partial verify aggregate verify_multi keys int_of str_of int_str cfg ppof txn txn_nodup _ all_fits all_own).
    assert (W : well_founded keys [t1] pp1).
    { intros t A. injection A as <-. split; [|exists 7; split; [reflexivity|discriminate]].
      intros lid r G. cbn in G. destruct (lid =? 1) eqn:C1; [apply Nat.eqb_eq in C1 as ->; exists 51; reflexivity|].
      destruct (lid =? 2) eqn:C2; [apply Nat.eqb_eq in C2 as ->; exists 61; reflexivity|discriminate]. }
    intros e [<-|[<-|[<-|[<-|[<-|[]]]]]]; try exact W. exact I.
  Qed.
End Inst.
Import Inst.

(** A faulty primary replaces a quorum's multi-signature: what a PrePrepare brings is accepted with
    any number of participants (bls_bft_replica_plenum.py:211-224), here with one, node 3, and is
    stored for the same root.  Its value is what node 3 likes: here another root of the ledger and
    another time for the same state root. *)
Theorem C67_shared_refuted : exists pp m r st o m0 st0 o0,
  run (es ++ [EOrder [t1] pp1]) = Ok (st0, o0) /\ get r (b_store st0) = Some m0 /\ length (ms_parts m0) = 3 /\
  run (es ++ [EOrder [t1] pp1; EPrePrepare pp true]) = Ok (st, o) /\ get r (b_store st) = Some m /\
  ms_parts m = [3] /\ v_txn (ms_value m) <> v_txn (ms_value m0) /\ length (ms_parts m) < bls_signatures (quo cfg).
Proof.
  pose (v := Value 1 50 7 9 1). exists (PrePrepare 0 2 5 (Val 7) (Some [MultiSig [(13, v)] [3] v])), (MultiSig [(13, v)] [3] v), 50.
  do 2 eexists. exists (MultiSig [(10, va); (11, va); (12, va)] [0; 1; 2] va). do 2 eexists.
  split; [vm_compute; reflexivity|]. split; [vm_compute; reflexivity|]. split; [vm_compute; reflexivity|]. split; [vm_compute; reflexivity|]. split; [vm_compute; reflexivity|]. split; [vm_compute; reflexivity|].
  cbn. lia.
Qed.
(** Participants without keys are not noticed either. *)
Theorem C67_strangers_refuted : exists m, validate_multi_sig verify_multi keys m = Ok true /\ In 40 (ms_parts m) /\
  keys (v_pool (ms_value m)) <> None /\ forall reg, keys (v_pool (ms_value m)) = Some reg -> reg 40 = None.
Proof.
  exists (MultiSig [(13, va)] [40; 41; 3] va). split; [vm_compute; reflexivity|]. split; [left; reflexivity|]. split; [discriminate|].
  intros reg E. injection E as <-. reflexivity.
Qed.

(** One faulty node prevents the multi-signatures of a batch: its Commit names ledger 1 with a
    leading zero, so its correct signature counts for a ledger of its own
    (bls_bft_replica_plenum.py:71, 146-150, 240-246). *)
Theorem C67_blocked_refuted : exists c st o,
  validate_commit verify keys int_of [t1] c 3 pp1 = Ok true /\
  run (es ++ [ECommit [t1] c 3 pp1; EOrder [t1] pp1]) = Ok (st, o) /\
  b_store st = [] /\ (forall m, ~ In (OMulti pp1 m) o) /\
  forall x, In x [0; 1; 2] -> gave verify keys int_of 0 (0, 1) t1 es x.
Proof.
  exists (Commit 0 1 (Some [(3, (13, va))])). do 2 eexists. split; [vm_compute; reflexivity|]. split; [vm_compute; reflexivity|]. split; [vm_compute; reflexivity|].
  split; [intros m [X|[]]; discriminate X|].
  assert (G : forall x, (x = 1 \/ x = 2) -> forall txt s, In (txt, s) [(2, (10 + x, va)); (4, (10 + x, vb))] ->
    exists v, value_of t1 pp1 (int_of txt) v /\ signed_by verify keys x s v).
  { intros x Hx txt s [X|[X|[]]]; injection X as <- <-; [exists va|exists vb]; (split; [|exists (fun x => if x <? 4 then Some (10 + x) else None), (10 + x)]);
      try (destruct Hx as [-> | ->]; cbn; auto; fail); [exists 50, 51, 7|exists 60, 61, 7]; cbn; auto. }
  intros x [<-|[<-|[<-|[]]]].
  - right. split; [vm_compute; reflexivity|]. do 3 eexists. split; [left; reflexivity|reflexivity].
  - left. exists [t1], (commit1 1), pp1, [(2, (11, va)); (4, (11, vb))]. split; [right; left; reflexivity|]. split; [vm_compute; reflexivity|]. split; [vm_compute; reflexivity|].
    exact (G 1 (or_introl eq_refl)).
  - left. exists [t1], (commit1 2), pp1, [(2, (12, va)); (4, (12, vb))]. split; [right; right; left; reflexivity|]. split; [vm_compute; reflexivity|]. split; [vm_compute; reflexivity|].
    exact (G 2 (or_intror eq_refl)).
Qed.

(** A PrePrepare of the master instance without the optional pool state root makes every node that
    signs raise AttributeError when it is about to send its Commit (bls_bft_replica_plenum.py:348). *)
Theorem C67_no_pool_root_refuted : exists pp : pre_prepare (list (nat * value)), pp_pool pp = Missing /\
  validate_pre_prepare verify_multi keys pp = Ok true /\
  run [EPrePrepare pp true; EOwn (Some (fun v => (10, v))) [t1] pp] = Raise.
Proof. exists (PrePrepare 0 1 5 Missing None). repeat split. Qed.

(** A multi-signature in a PrePrepare that names an unknown pool state raises KeyError. *)
Theorem C67_unknown_root_refuted : exists pp : pre_prepare (list (nat * value)), run [EPrePrepare pp true] = Raise.
Proof. exists (PrePrepare 0 1 5 (Val 7) (Some [MultiSig [] [1] (Value 1 50 9 51 5)])). reflexivity. Qed.

(** A Commit with signatures on a backup instance, where PrePrepares have no pool state root, raises
    on every node that gets it; no own signature is needed. *)
Theorem C67_backup_refuted : exists (pp : pre_prepare (list (nat * value))) c x, pp_pool pp = Null /\
  Bls_Model.run verify aggregate verify_multi keys int_of str_of (Config 0 (Quorums 4) false) init [EPrePrepare pp true; ECommit [t1] c x pp] = Raise.
Proof. exists (PrePrepare 0 1 5 Null None), (Commit 0 1 (Some [(2, (13, va))])), 3. repeat split. Qed.

(** A node whose key changes: the batch that brings pool state 8 is applied before it is executed,
    the node still signs with the old key and does not check its own signature.  The
    multi-signature it makes is rejected by every node. *)
Theorem C67_key_change_refuted : exists es m st o, run es = Ok (st, o) /\ In (OSent [m]) o /\
  (exists e, In e es /\ exists pp, e = EOrder [Audit 1 [(1, 50)] [(1, Hash 51)]] pp /\ pp_pool pp = Val 8) /\
  validate_pre_prepare verify_multi keys (PrePrepare 0 2 5 (Val 8) (Some [m])) = Ok false.
Proof.
  pose (t := Audit 1 [(1, 50)] [(1, Hash 51)]). pose (pp := PrePrepare 0 1 5 (Val 8) (@None (list (multi_sig (list (nat * value)))))).
  pose (v := Value 1 50 8 51 5). pose (c := fun x => Commit 0 1 (Some [(2, (10 + x, v))])).
  exists [EOwn (Some (fun v => (10, v))) [t] pp; ECommit [t] (c 1) 1 pp; ECommit [t] (c 2) 2 pp; EOrder [t] pp; ESend].
  exists (MultiSig [(10, v); (11, v); (12, v)] [0; 1; 2] v). do 2 eexists. split; [vm_compute; reflexivity|]. split; [cbn; tauto|].
  split; [|reflexivity]. exists (EOrder [t] pp). split; [right; right; right; left; reflexivity|]. exists pp. split; reflexivity.
Qed.

(** Two ledgers with the same state root (both states empty, or with the same content): the store
    has one place, the multi-signature of the first ledger is lost. *)
Theorem C67_same_root_refuted : exists es m1 m2 st o pp, run es = Ok (st, o) /\ In (OMulti pp m1) o /\ In (OMulti pp m2) o /\
  v_state (ms_value m1) = v_state (ms_value m2) /\ v_ledger (ms_value m1) = 1 /\ v_ledger (ms_value m2) = 2 /\
  get (v_state (ms_value m1)) (b_store st) = Some m2.
Proof.
  pose (t := Audit 1 [(1, 50); (2, 50)] [(1, Hash 51); (2, Hash 61)]).
  pose (v1 := Value 1 50 7 51 5). pose (v2 := Value 2 50 7 61 5).
  pose (c := fun x => Commit 0 1 (Some [(2, (10 + x, v1)); (4, (10 + x, v2))])).
  exists [EOwn (Some (fun v => (10, v))) [t] pp1; ECommit [t] (c 1) 1 pp1; ECommit [t] (c 2) 2 pp1; EOrder [t] pp1].
  exists (MultiSig [(10, v1); (11, v1); (12, v1)] [0; 1; 2] v1), (MultiSig [(10, v2); (11, v2); (12, v2)] [0; 1; 2] v2).
  do 2 eexists. exists pp1. split; [vm_compute; reflexivity|]. split; [cbn; tauto|]. split; [cbn; tauto|]. repeat split.
Qed.

(** After a question about an unknown pool state, which raises, the register answers the next
    question about it with no key (bls_key_register_pool_manager.py:22-29). *)
Theorem C67_cache_refuted : exists (ps : root -> option (list node_data)) x p r, keys_of (fun k => Some k) ps false p = None /\
  get_key (fun k => Some k) ps false no_keys x p = (r, Raise) /\ snd (get_key (fun k => Some k) ps false r x p) = Ok (@None nat).
Proof. exists (fun _ => None), 1, 9. eexists. repeat split. Qed.

(** The register: a node without a proof of possession counts only if such nodes are allowed. *)
Example C67_cache_example : let ps p := if p =? 7 then Some [NodeData 1 (Some 11) (Some 5); NodeData 2 (Some 12) None] else if p =? 8 then Some [] else None in
  map (fun x => snd (get_key (fun k => Some k) ps false (asked (fun k => Some k) ps false no_keys [(1, 7); (2, 8); (1, 7)]) x 7)) [1; 2; 3]
  = [Ok (Some 11); Ok None; Ok None].
Proof. reflexivity. Qed.
Example C67_audit_example : exists a, Audit_Model.create (fun _ => []) None 0 (fun _ => Base.Err Base.KeyError)
    (Audit_Model.mkEnv [(0, Audit_Model.mkLV [[]] 0 (Some [])); (1, Audit_Model.mkLV [[]] 1 (Some [])); (2, Audit_Model.mkLV [] 0 None)] [])
    (Audit_Model.mkBatch 1 0 None 1 0 (Some [1]) (Some [1]) true) = Base.Ok a /\
  map fst (Audit_Model.a_state a) = [0; 1].
Proof. eexists. split; reflexivity. Qed.

Print Assumptions C67_sound_partial.
Print Assumptions C67_correct_signers.
Print Assumptions C67_accepted_partial.
Print Assumptions C67_store.
Print Assumptions C67_complete_partial.
Print Assumptions C67_no_exception_partial.
Print Assumptions C67_cache_partial.
Print Assumptions C67_audit_regular.
Print Assumptions C67_shared_refuted.
Print Assumptions C67_strangers_refuted.
Print Assumptions C67_blocked_refuted.
Print Assumptions C67_no_pool_root_refuted.
Print Assumptions C67_unknown_root_refuted.
Print Assumptions C67_backup_refuted.
Print Assumptions C67_key_change_refuted.
Print Assumptions C67_same_root_refuted.
Print Assumptions C67_cache_refuted.
Print Assumptions C67_keys.
Print Assumptions C67_audit_for.
