(** C62-C64: requests are accepted only when signed, identities are written only by stewards, and the keys
    in use are those of the ledger. *)
From Coq Require Import List Arith Bool ZArith Lia.
From Verif Require Import Nym_Model Nym_Spec Nym_Proofs.
Import ListNotations.

Section Props.
  Variable long : did -> bool.
  Variable own : did -> nat.
  Variable join : did -> nat -> nat.
  Variable verifies : nat -> nat -> request -> bool.
  Variable digest : list did * option nat * option (list (did * nat)) * option did * op * nat -> nat.
  Variable threshold : Z.
  Notation did_key := (did_key long own join).
  Notation accept := (accept long own join verifies digest).
  Notation step := (step long own join verifies digest threshold).
  Notation run := (run long own join verifies digest threshold).
  Notation init := (init long own join).
  Notation key_for := (key_for long own join).
  Notation along := (along long own join verifies digest threshold).

  (** C62: a write request is accepted only if everybody it names - its author, its endorser, every
      signer - has signed it: the signature it carries was found good, at some moment up to now, for a
      request of the same content and with the key the node had for that identifier then. Missing: that
      the key is still the one of the identifier (C62_stale_refuted) and is theirs (C62_endorser_refuted). *)
  Theorem C62_accepted_partial : forall g n0 es n q, init g = Some n0 -> run n0 es = Some n -> no_collision digest (q :: requests es) ->
    fst (accept n q) = true -> is_query q = false ->
    author q <> [] /\
    exists es1 es2 n1 q', es = es1 ++ es2 /\ run n0 es1 = Some n1 /\ (q' = q \/ In q' (requests es)) /\ content q' = content q /\
      forall d, named q d -> exists s k, carries q d s /\ carries q' d s /\ key_for n1 q' d k /\ verifies k s (unsigned q') = true.
  Proof.
    intros g n0 es n q I R NC A Q.
    assert (Z : n_seen n0 = []) by (unfold Nym_Model.init in I; destruct (add_roles long own join [] g); [injection I as <-; reflexivity|discriminate]).
    pose proof (run_seen long own join verifies digest threshold n0 es n Z R) as INV. unfold Nym_Model.accept in A. destruct (validate q) eqn:V; cbn [negb] in A; [|discriminate].
    assert (FIN : forall n1 q', validate q' = true -> authenticate long own join verifies n1 q' = true -> content q' = content q ->
      author q <> [] /\ forall d, named q d -> exists s k, carries q d s /\ carries q' d s /\ key_for n1 q' d k /\ verifies k s (unsigned q') = true).
    { intros n1 q' V' A' C. destruct (all_signed long own join verifies n1 q' V' A') as [S NE]. assert (C' := C). unfold content in C'. injection C' as C1 C2 C3 C4 C5 C6.
      split; [rewrite <- C1; exact NE|]. assert (SG : sigs_of q' = sigs_of q) by (unfold sigs_of; rewrite C3; reflexivity).
      intros d N. destruct (S d) as (s & k & CA & K & VE); [unfold named in *; rewrite C1, C4, SG; exact N|]. exists s, k. split; [|auto].
      destruct CA as [[X Y]|X]; [|right; rewrite <- SG; exact X]. left. rewrite C2 in Y. split; [|exact Y]. unfold author in C1. rewrite X in C1. destruct (q_idr q) as [i|] eqn:I'; [injection C1 as ->; reflexivity|].
      exfalso. unfold validate in V. rewrite I', Y in V. rewrite !andb_true_iff in V. destruct V as [[V1 _] V3]. rewrite V3 in V1. discriminate. }
    assert (REST : (match q_op q with OQuery _ => (true, n_seen n) | _ => if authenticate long own join verifies n q then (true, set (digest (content q)) (q_sig q) (n_seen n)) else (false, n_seen n) end) = (true, snd (accept n q)) \/
                   fst (match q_op q with OQuery _ => (true, n_seen n) | _ => if authenticate long own join verifies n q then (true, set (digest (content q)) (q_sig q) (n_seen n)) else (false, n_seen n) end) = true ->
            author q <> [] /\ exists es1 es2 n1 q', es = es1 ++ es2 /\ run n0 es1 = Some n1 /\ (q' = q \/ In q' (requests es)) /\ content q' = content q /\
      forall d, named q d -> exists s k, carries q d s /\ carries q' d s /\ key_for n1 q' d k /\ verifies k s (unsigned q') = true).
    { intros X. assert (AU : authenticate long own join verifies n q = true).
      { unfold is_query in Q. destruct (q_op q); [| |discriminate]; destruct (authenticate long own join verifies n q); try reflexivity; destruct X as [X|X]; discriminate. }
      destruct (FIN n q V AU eq_refl) as [F1 F2]. split; [exact F1|]. exists es, [], n, q. rewrite app_nil_r. repeat (split; [solve [auto]|]). exact F2. }
    destruct (get (digest (content q)) (n_seen n)) as [s0|] eqn:G; [destruct (opt_eqb (q_sig q) s0)|]; [|exact (REST (or_intror A))|exact (REST (or_intror A))].
    destruct (INV _ _ G) as (es1 & es2 & n1 & q' & E & R1 & Q' & D & _ & V' & A').
    assert (C : content q' = content q) by (apply NC; [right; exact Q' | left; reflexivity | exact D]).
    destruct (FIN n1 q' V' A' C) as [F1 F2]. split; [exact F1|]. exists es1, es2, n1, q'. repeat (split; [solve [auto]|]). exact F2.
  Qed.

  (** a request not looked at before is checked against the keys the node has now *)
  Theorem C62_fresh : forall n q, get (digest (content q)) (n_seen n) = None -> is_query q = false -> fst (accept n q) = true ->
    author q <> [] /\ signed long own join verifies n q.
  Proof.
    intros n q G Q A. unfold Nym_Model.accept in A. destruct (validate q) eqn:V; cbn [negb] in A; [|discriminate]. rewrite G in A. unfold is_query in Q.
    assert (AU : authenticate long own join verifies n q = true) by (destruct (q_op q); [| |discriminate]; destruct (authenticate long own join verifies n q); try reflexivity; discriminate).
    destruct (all_signed long own join verifies n q V AU). auto.
  Qed.
  (** a wrong signature of anybody named is enough to be refused *)
  Theorem C62_refused : forall n q d s, get (digest (content q)) (n_seen n) = None -> is_query q = false -> In (d, s) (sigs_of q) ->
    (forall k, key_for n q d k -> verifies k s (unsigned q) = false) -> fst (accept n q) = false.
  Proof.
    intros n q d s G Q IN BAD. destruct (fst (accept n q)) eqn:A; [exfalso|reflexivity]. unfold Nym_Model.accept in A. destruct (validate q) eqn:V; cbn [negb] in A; [|discriminate]. rewrite G in A. unfold is_query in Q.
    assert (AU : authenticate long own join verifies n q = true) by (destruct (q_op q); [| |discriminate]; destruct (authenticate long own join verifies n q); try reflexivity; discriminate).
    unfold authenticate in AU. apply andb_true_iff in AU. destruct AU as [_ AU]. rewrite forallb_forall in AU.
    assert (S : In (d, s) (signatures q)).
    { unfold signatures. destruct (q_idr q); [|exact IN]. destruct (q_sig q) eqn:QS; [|exact IN]. exfalso. unfold validate in V. rewrite QS in V. rewrite !andb_true_iff in V. destruct V as [[V _] _].
      destruct (sigs_of q); [destruct IN | discriminate]. }
    destruct (sig_key long own join verifies n q d s (AU _ S)) as (k & K & VE). rewrite (BAD k K) in VE. discriminate.
  Qed.

  (** C63: the identities of the ledger beyond the genesis ones were all written by somebody who was a
      steward in the state just before, whatever is proposed, reverted, restarted or requested *)
  Theorem C63_author_partial : forall g n0 es n, init g = Some n0 -> along caught_by_steward n0 es -> run n0 es = Some n -> by_stewards g (ledger n).
  Proof.
    intros g n0 es n I A R. apply (run_by long own join verifies digest threshold g es n0 n); [|exact A|exact R].
    unfold Nym_Model.init in I. destruct (add_roles long own join [] g); [injection I as <-|discriminate]. unfold ledger. cbn. rewrite app_nil_r. apply by_stewards_nil.
  Qed.
  (** who added an identity is never changed: it stays the author of its first transaction *)
  Theorem C63_creator : forall l d r, get d (state_of l) = Some r ->
    exists a x b, l = a ++ x :: b /\ o_dest (x_op x) = d /\ r_by r = x_from x /\ forall y, In y a -> o_dest (x_op y) <> d.
  Proof.
    assert (NONE : forall l d, get d (state_of l) = None -> forall y, In y l -> o_dest (x_op y) <> d).
    { induction l as [|x l IH] using rev_ind; intros d G y Y; [destruct Y|]. rewrite state_of_snoc in G. unfold update_state in G. rewrite get_set in G.
      destruct (Nat.eqb_spec (o_dest (x_op x)) d) as [_|NE]; [discriminate|]. apply in_app_or in Y. destruct Y as [Y|[<-|[]]]; [exact (IH d G y Y) | exact NE]. }
    induction l as [|x l IH] using rev_ind; intros d r G; [discriminate|]. rewrite state_of_snoc in G. unfold update_state in G. rewrite get_set in G.
    assert (OLD : forall r', get d (state_of l) = Some r' -> r_by r = r_by r' -> exists a y b, l ++ [x] = a ++ y :: b /\ o_dest (x_op y) = d /\ r_by r = x_from y /\ forall z, In z a -> o_dest (x_op z) <> d).
    { intros r' G' B. destruct (IH d r' G') as (a & y & b & E & D & BY & N). exists a, y, (b ++ [x]). rewrite E, <- app_assoc. split; [reflexivity|]. split; [exact D|]. split; [congruence|exact N]. }
    destruct (Nat.eqb_spec (o_dest (x_op x)) d) as [E|NE]; [|exact (OLD r G eq_refl)]. injection G as G. rewrite E in G. destruct (get d (state_of l)) as [r'|] eqn:G'.
    - apply (OLD r' eq_refl). rewrite <- G. reflexivity.
    - exists l, x, []. split; [reflexivity|]. split; [exact E|]. split; [rewrite <- G; reflexivity | exact (NONE l d G')].
  Qed.
  (** the role of an identity is that of the last transaction about it, and its key that of the last
      transaction about it that gave one *)
  Theorem C63_last : forall l d r, get d (state_of l) = Some r ->
    (exists a x b, l = a ++ x :: b /\ o_dest (x_op x) = d /\ r_role r = o_role (x_op x) /\ forall y, In y b -> o_dest (x_op y) <> d) /\
    (r_key r <> None -> exists a x b, l = a ++ x :: b /\ o_dest (x_op x) = d /\ o_key (x_op x) = Some (r_key r) /\ forall y, In y b -> o_dest (x_op y) = d -> o_key (x_op y) = None).
  Proof.
    induction l as [|x l IH] using rev_ind; intros d r G; [discriminate|]. rewrite state_of_snoc in G. unfold update_state in G. rewrite get_set in G.
    destruct (Nat.eqb_spec (o_dest (x_op x)) d) as [E|NE].
    - injection G as G. split; [exists l, x, []; repeat (split; [solve [auto]|]); split; [rewrite <- G; reflexivity | intros y []]|]. intros K. destruct (o_key (x_op x)) as [k|] eqn:O.
      + exists l, x, []. repeat (split; [solve [auto]|]). split; [rewrite O, <- G; unfold new_rec; cbn; rewrite O; reflexivity | intros y []].
      + rewrite E in G. destruct (get d (state_of l)) as [r'|] eqn:G'; [|exfalso; apply K; rewrite <- G; unfold new_rec; cbn; rewrite O; reflexivity].
        assert (KK : r_key r = r_key r') by (rewrite <- G; unfold new_rec; cbn; rewrite O; reflexivity). destruct (IH d r' G') as [_ H]. destruct H as (a & y & b & EL & D & KY & N); [congruence|].
        exists a, y, (b ++ [x]). rewrite EL, <- app_assoc, KK. repeat (split; [solve [auto]|]). intros z Z DZ. apply in_app_or in Z. destruct Z as [Z|[<-|[]]]; [exact (N z Z DZ) | exact O].
    - destruct (IH d r G) as [(a & y & b & EL & D & RY & N) H]. split.
      + exists a, y, (b ++ [x]). rewrite EL, <- app_assoc. repeat (split; [solve [auto]|]). intros z Z. apply in_app_or in Z. destruct Z as [Z|[<-|[]]]; [exact (N z Z) | exact NE].
      + intros K. destruct (H K) as (a' & y' & b' & EL' & D' & KY & N'). exists a', y', (b' ++ [x]). rewrite EL', <- app_assoc. repeat (split; [solve [auto]|]).
        intros z Z DZ. apply in_app_or in Z. destruct Z as [Z|[<-|[]]]; [exact (N' z Z DZ) | congruence].
  Qed.
  (** while nothing is reverted and every restart rebuilds the state, the counter is the number of
      stewards, and there are never more of them than the threshold or than the genesis had *)
  Theorem C63_threshold_partial : forall g n0 es n, init g = Some n0 -> along (calm threshold) n0 es -> run n0 es = Some n ->
    n_count n = Z.of_nat (stewards (head n)) /\ (Z.of_nat (stewards (head n)) <= Z.max threshold (Z.of_nat (stewards (state_of g))))%Z.
  Proof.
    intros g n0 es n I A R. destruct (run_counted long own join verifies digest threshold g es n0 n (init_counted long own join threshold g n0 I) A R) as (C & B & L).
    split; [exact C|]. unfold head. apply (B (ledger n) []); [rewrite app_nil_r; reflexivity | unfold ledger; rewrite app_length; lia].
  Qed.
  (** below the threshold, a steward may write any identity *)
  Theorem C63_allowed : forall s c d r o, get d s = Some r -> r_role r = STEWARD -> (c < threshold)%Z -> apply_batch threshold s c [mkX [d] o] = ([mkX [d] o], update_count s c (mkX [d] o)).
  Proof.
    intros s c d r o G S C. cbn [apply_batch]. unfold nym_ok, is_steward, was_steward. cbn [x_from x_op]. rewrite G, S. apply Z.leb_gt in C. rewrite C. cbn. rewrite andb_false_r. reflexivity.
  Qed.

  (** which key an identifier and a written key make: a full key is itself, an abbreviated one needs an
      identifier of half the length, and only an identifier long enough to be a key can do without *)
  Theorem C64_key_of : forall d v k, did_key d v = Some k <->
    v = Some (VFull k) \/ (exists a, v = Some (VAbbr a) /\ long d = false /\ k = join d a) \/ (v = None /\ long d = true /\ k = own d).
  Proof.
    intros d [[f|a]|] k; cbn.
    - split; [intros E; injection E as ->; left; reflexivity|]. intros [E|[(a & E & _)|(E & _)]]; congruence.
    - destruct (long d) eqn:L.
      + split; [discriminate|]. intros [E|[(a' & E & L' & _)|(E & _)]]; congruence.
      + split; [intros E; right; left; exists a; repeat split; congruence|]. intros [E|[(a' & E & L' & E2)|(E & _)]]; congruence.
    - destruct (long d) eqn:L.
      + split; [intros E; right; right; repeat split; congruence|]. intros [E|[(a' & E & _)|(_ & _ & E)]]; congruence.
      + split; [discriminate|]. intros [E|[(a' & E & _)|(_ & E & _)]]; congruence.
  Qed.

  (** C64: the table of clients holds, for each identity, the key of its first transaction in the ledger,
      at every moment of every history: nodes with the same ledger have the same table *)
  Theorem C64_table : forall g n0 es n, init g = Some n0 -> run n0 es = Some n -> forall d, get d (n_clients n) = first_key long own join d (n_com n).
  Proof. intros g n0 es n I R. exact (proj1 (run_tab long own join verifies digest threshold es n0 n (init_tab long own join g n0 I) R)). Qed.
  (** the key an identity is checked with is the one in its record, if its key was never changed or it is
      not in the table *)
  Theorem C64_current_partial : forall g n0 es n d r v, init g = Some n0 -> run n0 es = Some n -> get d (head n) = Some r -> r_key r = Some v ->
    get d (n_clients n) = None \/ never_changed (ledger n) d v ->
    forall q k, key_for n q d k <-> did_key d (Some v) = Some k.
  Proof.
    intros g n0 es n d r v I R G V H q k. destruct (run_tab long own join verifies digest threshold es n0 n (init_tab long own join g n0 I) R) as [T _]. specialize (T d).
    assert (CL : forall c, get d (n_clients n) = Some c -> did_key d (Some v) = Some c).
    { intros c C. destruct H as [H|H]; [congruence|]. rewrite C in T. symmetry in T. unfold first_key in T. destruct (find (fun x => (o_dest (x_op x) =? d) && plain x) (n_com n)) as [x|] eqn:F; [|discriminate].
      destruct (find_some _ _ F) as [X E]. apply andb_true_iff in E. destruct E as [E _]. apply Nat.eqb_eq in E. rewrite (H x) in T; [exact T | apply in_or_app; left; exact X | exact E]. }
    split.
    - intros K. inversion K as [C|r' v' C G' V' D|o v' C G' O Q OK D]; [exact (CL k C) | congruence | congruence].
    - intros D. destruct (get d (n_clients n)) as [c|] eqn:C; [|exact (K_state _ _ _ _ _ _ _ r v C G V D)]. pose proof (CL c eq_refl) as D'. rewrite D in D'. injection D' as <-. exact (K_client _ _ _ _ _ _ _ C).
  Qed.
  (** executing and catching up identities, and restarting, raise no exception if a key can be made from
      every identity written *)
  Theorem C64_no_exception_partial : forall g es, (forall x, In x g -> keyed long own join x) -> all_keyed long own join es -> exists n0 n, init g = Some n0 /\ run n0 es = Some n.
  Proof.
    intros g es G H. assert (FG : Forall (keyed long own join) g) by (apply Forall_forall; exact G). unfold Nym_Model.init. destruct (add_roles_total long own join g [] FG) as (cl & ->).
    destruct (run_keyed long own join verifies digest threshold es (mkN g [] (count_all [] 0 g) cl [])) with (3 := H) as (n & R); [exact FG|constructor|]. exists (mkN g [] (count_all [] 0 g) cl []), n. auto.
  Qed.
End Props.

(** ** Concrete cases. Identifiers from 10 on are 32 bytes long and their own keys, a signature verifies
    with the key of its number, digests are taken by a function that tells the requests below apart *)
Definition lg (d : did) : bool := 10 <=? d.
Definition ow (d : did) : nat := d.
Definition jn (d : did) (a : nat) : nat := d + 20 * a.
Definition vf (k s : nat) (_ : request) : bool := k =? s.
Definition dg (c : list did * option nat * option (list (did * nat)) * option did * op * nat) : nat := snd c.
Definition gen : list txn := [mkX [] (mkOp 1 STEWARD (Some (Some (VFull 31)))); mkX [] (mkOp 2 STEWARD (Some (Some (VAbbr 3))))].
Definition start : node := match init lg ow jn gen with Some n => n | None => mkN [] [] 0 [] [] end.
Definition go (t : Z) (es : list event) : node := match run lg ow jn vf dg t start es with Some n => n | None => start end.
Definition nym1 (d : did) (r : role) (k : option (option vkey)) : txn := mkX [1] (mkOp d r k).

(** C62_accepted_partial: an accepted request signed by its author and its endorser *)
Definition q62 : request := mkQ (Some 1) None (Some [(2, 62); (1, 31)]) (Some 2) (OWrite 0) 0.
Example C62_accepted_case : init lg ow jn gen = Some start /\ run lg ow jn vf dg 5 start [ERequest q62] = Some (go 5 [ERequest q62]) /\ no_collision dg (q62 :: requests [ERequest q62]) /\
  fst (accept lg ow jn vf dg (go 5 [ERequest q62]) q62) = true /\ is_query q62 = false /\ named q62 2 /\ fst (accept lg ow jn vf dg start q62) = true.
Proof.
  repeat (split; [first [reflexivity | vm_compute; reflexivity | idtac]|]); [intros a b [<-|[<-|[]]] [<-|[<-|[]]] _; reflexivity | right; left; reflexivity | vm_compute; reflexivity].
Qed.
(** C62_refused: the endorser's signature is wrong *)
Definition q62b : request := mkQ (Some 1) None (Some [(2, 61); (1, 31)]) (Some 2) (OWrite 0) 0.
Example C62_refused_case : get (dg (content q62b)) (n_seen start) = None /\ In (2, 61) (sigs_of q62b) /\ fst (accept lg ow jn vf dg start q62b) = false.
Proof. split; [reflexivity|]. split; [left; reflexivity | vm_compute; reflexivity]. Qed.

(** the signature of an endorser nobody knows is checked with the key the author put in the request: the
    author of a NYM request about themselves can name any unknown identifier as endorser and sign for it *)
Theorem C62_endorser_refuted : forall e, e <> 1 -> e <> 2 -> e <> 5 -> exists q, q_endorser q = Some e /\ q_idr q = Some 5 /\ get e (head start) = None /\
  sigs_of q = [(5, 7); (e, 7)] /\ fst (accept lg ow jn vf dg start q) = true /\ key_for lg ow jn start q e 7.
Proof.
  intros e E1 E2 E5. exists (mkQ (Some 5) None (Some [(5, 7); (e, 7)]) (Some e) (ONym (mkOp 5 None (Some (Some (VFull 7))))) 0).
  assert (H : get e (head start) = None).
  { change (head start) with [(1, mkRec [] STEWARD (Some (VFull 31))); (2, mkRec [] STEWARD (Some (VAbbr 3)))]. cbn [get]. apply not_eq_sym, Nat.eqb_neq in E1. apply not_eq_sym, Nat.eqb_neq in E2. rewrite E1, E2. reflexivity. }
  assert (C : get e (n_clients start) = None).
  { change (n_clients start) with [(2, 62); (1, 31)]. cbn [get]. apply not_eq_sym, Nat.eqb_neq in E1. apply not_eq_sym, Nat.eqb_neq in E2. rewrite E1, E2. reflexivity. }
  split; [reflexivity|]. split; [reflexivity|]. split; [exact H|]. split; [reflexivity|]. split.
  - set (q := mkQ (Some 5) None (Some [(5, 7); (e, 7)]) (Some e) (ONym (mkOp 5 None (Some (Some (VFull 7))))) 0).
    assert (V : validate q = true) by (unfold validate, mem; cbn; rewrite Nat.eqb_refl, orb_true_r; reflexivity).
    assert (SA : sig_ok lg ow jn vf start q (5, 7) = true) by reflexivity.
    assert (SE : sig_ok lg ow jn vf start q (e, 7) = true) by (unfold sig_ok; cbn [fst snd]; unfold get_verkey; rewrite C, H; reflexivity).
    assert (A : authenticate lg ow jn vf start q = true) by (unfold authenticate; change (signatures q) with [(5, 7); (e, 7)]; cbn [forallb]; rewrite SA, SE; reflexivity).
    unfold accept. rewrite V. change (get (dg (content q)) (n_seen start)) with (@None (option nat)). rewrite A. reflexivity.
  - apply (K_new lg ow jn start _ e 7 (mkOp 5 None (Some (Some (VFull 7)))) (VFull 7) C H); reflexivity.
Qed.
(** a request accepted once is accepted again after its author's key was replaced *)
Definition q5 : request := mkQ (Some 5) (Some 7) None None (OWrite 0) 0.
Definition es_stale : list event := [EBatch [nym1 5 (Some 101) (Some (Some (VFull 7)))]; ECommit; ERequest q5; EBatch [nym1 5 (Some 101) (Some (Some (VFull 8)))]; ECommit].
Theorem C62_stale_refuted : run lg ow jn vf dg 5 start es_stale = Some (go 5 es_stale) /\ fst (accept lg ow jn vf dg (go 5 es_stale) q5) = true /\ ~ signed lg ow jn vf (go 5 es_stale) q5.
Proof.
  split; [vm_compute; reflexivity|]. split; [vm_compute; reflexivity|]. intros S. destruct (S 5) as (s & k & C & K & V); [left; left; reflexivity|].
  destruct C as [[_ C]|[]]. injection C as <-. apply Nat.eqb_eq in V. subst k. destruct K as [C|r v C G V D|o v C G O].
  - vm_compute in C. discriminate.
  - change (get 5 (head (go 5 es_stale))) with (Some (mkRec [1] (Some 101) (Some (VFull 8)))) in G. injection G as <-. injection V as <-. discriminate.
  - discriminate.
Qed.

(** C63_author_partial, C63_threshold_partial: a steward is added, up to the threshold, one demoted, one added
    in their place *)
Definition es63 : list event := [EBatch [nym1 5 STEWARD (Some (Some (VFull 7))); nym1 6 STEWARD (Some (Some (VFull 8)))]; ECommit; ECaught (mkX [5] (mkOp 2 None (Some (Some (VAbbr 3)))));
  EBatch [nym1 6 STEWARD (Some (Some (VFull 8)))]; ECommit; ERestart true; EBatch [nym1 12 STEWARD None]].
Example C63_case : init lg ow jn gen = Some start /\ run lg ow jn vf dg 3 start es63 = Some (go 3 es63) /\ along lg ow jn vf dg 3 caught_by_steward start es63 /\ along lg ow jn vf dg 3 (calm 3) start es63 /\
  ledger (go 3 es63) = gen ++ [nym1 5 STEWARD (Some (Some (VFull 7))); mkX [5] (mkOp 2 None (Some (Some (VAbbr 3)))); nym1 6 STEWARD (Some (Some (VFull 8)))] /\ stewards (head (go 3 es63)) = 3.
Proof.
  split; [reflexivity|]. split; [vm_compute; reflexivity|]. split.
  - cbn [along caught_by_steward es63]. vm_compute step. split; [exact Logic.I|]. vm_compute step. split; [exact Logic.I|]. vm_compute step. split; [exists 5, (mkRec [1] STEWARD (Some (VFull 7))); vm_compute; auto|].
    repeat (vm_compute step; split; [exact Logic.I|]). vm_compute. exact Logic.I.
  - split; [|vm_compute; auto]. cbn [along calm es63]. split; [exact Logic.I|]. vm_compute step. split; [exact Logic.I|]. vm_compute step. split; [vm_compute; discriminate|].
    vm_compute step. split; [exact Logic.I|]. vm_compute step. split; [exact Logic.I|]. vm_compute step. split; [reflexivity|]. vm_compute step. split; [exact Logic.I|]. vm_compute. exact Logic.I.
Qed.
(** C63_creator and C63_last *)
Example C63_record_case : get 5 (state_of [nym1 5 STEWARD (Some (Some (VFull 7))); nym1 6 None None; mkX [2] (mkOp 5 None None)]) = Some (mkRec [1] None (Some (VFull 7))).
Proof. vm_compute. reflexivity. Qed.
(** C63_allowed *)
Example C63_allowed_case : get 1 (head start) = Some (mkRec [] STEWARD (Some (VFull 31))) /\ (n_count start < 3)%Z.
Proof. split; vm_compute; reflexivity. Qed.

(** the counter is not put back when a batch is reverted: after a steward's demotion was proposed and
    reverted, more stewards than the threshold can be added *)
Definition es_rej : list event := [EBatch [nym1 2 None (Some (Some (VAbbr 3)))]; EReject; EBatch [nym1 5 STEWARD (Some (Some (VFull 7)))]; ECommit].
Theorem C63_reject_refuted : run lg ow jn vf dg 2 start es_rej = Some (go 2 es_rej) /\ stewards (state_of gen) = 2 /\ stewards (state_of (n_com (go 2 es_rej))) = 3 /\
  (forall b, stewards (state_of (n_com (match run lg ow jn vf dg 2 start [EBatch b; ECommit] with Some n => n | None => start end))) <= 2).
Proof.
  split; [vm_compute; reflexivity|]. split; [reflexivity|]. split; [vm_compute; reflexivity|]. intros b. destruct (run lg ow jn vf dg 2 start [EBatch b; ECommit]) as [n|] eqn:R; [|vm_compute; auto].
  pose proof (C63_threshold_partial lg ow jn vf dg 2 gen start [EBatch b; ECommit] n eq_refl) as T. destruct T as [_ T]; [|exact R|].
  - cbn [along calm]. split; [exact Logic.I|]. destruct (step lg ow jn vf dg 2 start (EBatch b)); [|exact Logic.I]. split; [exact Logic.I|]. match goal with |- match ?x with _ => _ end => destruct x; exact Logic.I end.
  - assert (EL : n_com n = ledger n).
    { unfold ledger. replace (n_bs n) with (@nil (list txn)); [cbn; rewrite app_nil_r; reflexivity|]. cbn [run step] in R. destruct (apply_batch 2 (head start) (n_count start) b) as [l c].
      cbn [run step n_bs n_com n_clients n_seen n_count app] in R. change (n_bs start) with (@nil (list txn)) in R. cbn [app] in R. destruct (add_roles lg ow jn (n_clients start) l); [|discriminate]. injection R as <-. reflexivity. }
    rewrite EL. change (stewards (state_of gen)) with 2 in T. unfold head in T. unfold ledger. lia.
Qed.
(** a steward's addition that is proposed and reverted uses up the threshold: none can be added any more *)
Definition es_use : list event := [EBatch [nym1 5 STEWARD (Some (Some (VFull 7)))]; EReject].
Theorem C63_blocked_refuted : n_com (go 3 es_use) = n_com start /\ n_bs (go 3 es_use) = [] /\ stewards (head (go 3 es_use)) = 2 /\
  forall d k, ledger (match step lg ow jn vf dg 3 (go 3 es_use) (EBatch [nym1 d STEWARD k]) with Some n => n | None => start end) = gen.
Proof. split; [vm_compute; reflexivity|]. split; [vm_compute; reflexivity|]. split; [vm_compute; reflexivity|]. intros d k. reflexivity. Qed.
(** a node restarted with its state on disk counts the stewards from zero: with the same ledger, it finds
    valid what the others find invalid *)
Theorem C63_restart_refuted : exists n m x, run lg ow jn vf dg 2 start [ERestart true] = Some n /\ run lg ow jn vf dg 2 start [ERestart false] = Some m /\ ledger n = ledger m /\
  fst (apply_batch 2 (head n) (n_count n) [x]) = [] /\ fst (apply_batch 2 (head m) (n_count m) [x]) = [x] /\ stewards (state_of (ledger m ++ [x])) = 3.
Proof. exists (go 2 [ERestart true]), (go 2 [ERestart false]), (nym1 5 STEWARD (Some (Some (VFull 7)))). repeat (split; [vm_compute; reflexivity|]). vm_compute. reflexivity. Qed.
(** a NYM request without role takes the role away: a steward who replaces their key is no steward any more;
    and at the threshold a steward cannot name the role either *)
Theorem C63_role_lost_refuted : exists x y, o_dest (x_op x) = 1 /\ o_role (x_op x) = None /\ x_from x = [1] /\ fst (apply_batch 2 (head start) (n_count start) [x]) = [x] /\
  was_steward (head start) 1 = true /\ was_steward (state_of (gen ++ [x])) 1 = false /\
  y = mkX [1] (mkOp 1 STEWARD (o_key (x_op x))) /\ fst (apply_batch 2 (head start) (n_count start) [y]) = [].
Proof. exists (nym1 1 None (Some (Some (VFull 9)))), (nym1 1 STEWARD (Some (Some (VFull 9)))). repeat (split; [vm_compute; reflexivity|]). vm_compute. reflexivity. Qed.
(** a steward can replace the key of anybody, and make themselves trustee *)
Theorem C63_any_key_refuted : exists x y, x_from x = [1] /\ x_from y = [1] /\ fst (apply_batch 2 (head start) (n_count start) [x; y]) = [x; y] /\
  get 2 (state_of (gen ++ [x; y])) = Some (mkRec [] None (Some (VFull 9))) /\ get 1 (state_of (gen ++ [x; y])) = Some (mkRec [] TRUSTEE (Some (VFull 31))).
Proof. exists (nym1 2 None (Some (Some (VFull 9)))), (nym1 1 TRUSTEE None). repeat (split; [vm_compute; reflexivity|]). vm_compute. reflexivity. Qed.

(** C64_current_partial: identity 5 was written twice, with the same key, and is checked with it; 6 has
    another role, its key was replaced *)
Definition es64 : list event := [EBatch [nym1 5 None (Some (Some (VAbbr 2))); nym1 6 (Some 101) (Some (Some (VFull 8)))]; ECommit; EBatch [nym1 5 TRUSTEE (Some (Some (VAbbr 2))); nym1 6 (Some 101) (Some (Some (VFull 9)))]; ECommit].
Example C64_case : init lg ow jn gen = Some start /\ run lg ow jn vf dg 3 start es64 = Some (go 3 es64) /\ all_keyed lg ow jn es64 /\
  get 5 (head (go 3 es64)) = Some (mkRec [1] TRUSTEE (Some (VAbbr 2))) /\ never_changed (ledger (go 3 es64)) 5 (VAbbr 2) /\ get 5 (n_clients (go 3 es64)) = Some 45 /\
  get 6 (head (go 3 es64)) = Some (mkRec [1] (Some 101) (Some (VFull 9))) /\ get 6 (n_clients (go 3 es64)) = None.
Proof.
  split; [reflexivity|]. split; [vm_compute; reflexivity|]. split.
  - intros e E. cbn [In es64] in E. destruct E as [<-|[<-|[<-|[<-|[]]]]]; try exact Logic.I; intros x [<-|[<-|[]]]; discriminate.
  - split; [vm_compute; reflexivity|]. split; [|vm_compute; auto].
    change (ledger (go 3 es64)) with (gen ++ [nym1 5 None (Some (Some (VAbbr 2))); nym1 6 (Some 101) (Some (Some (VFull 8))); nym1 5 TRUSTEE (Some (Some (VAbbr 2))); nym1 6 (Some 101) (Some (Some (VFull 9)))]).
    intros x X D. cbn [app In gen] in X. destruct X as [<-|[<-|[<-|[<-|[<-|[<-|[]]]]]]]; try reflexivity; discriminate.
Qed.

(** once replaced, the old key of an identity is still the one accepted and the new one is refused, also
    after a restart *)
Definition es_rot : list event := [EBatch [nym1 5 None (Some (Some (VFull 7)))]; ECommit; EBatch [nym1 5 None (Some (Some (VFull 8)))]; ECommit].
Theorem C64_rotation_refuted : forall es, es = es_rot \/ es = es_rot ++ [ERestart false] -> run lg ow jn vf dg 3 start es = Some (go 3 es) /\
  get 5 (state_of (n_com (go 3 es))) = Some (mkRec [1] None (Some (VFull 8))) /\
  fst (accept lg ow jn vf dg (go 3 es) (mkQ (Some 5) (Some 7) None None (OWrite 0) 0)) = true /\
  fst (accept lg ow jn vf dg (go 3 es) (mkQ (Some 5) (Some 8) None None (OWrite 0) 0)) = false.
Proof. intros es [->| ->]; repeat (split; [vm_compute; reflexivity|]); vm_compute; reflexivity. Qed.
(** a NYM request without key about an identity of 16 bytes, such as a change of role, is valid; executing
    it raises an exception on every node, after it was written, and no node with it in its ledger can start
    or catch up *)
Theorem C64_no_key_refuted : exists x n, x_from x = [1] /\ o_key (x_op x) = None /\ step lg ow jn vf dg 3 start (EBatch [x]) = Some n /\ ledger n = gen ++ [x] /\
  step lg ow jn vf dg 3 n ECommit = None /\ init lg ow jn (gen ++ [x]) = None /\ step lg ow jn vf dg 3 start (ECaught x) = None.
Proof. exists (nym1 2 None None), (go 3 [EBatch [nym1 2 None None]]). repeat (split; [vm_compute; reflexivity|]). vm_compute. reflexivity. Qed.

Print Assumptions C62_accepted_partial.
Print Assumptions C62_fresh.
Print Assumptions C62_refused.
Print Assumptions C62_endorser_refuted.
Print Assumptions C62_stale_refuted.
Print Assumptions C63_author_partial.
Print Assumptions C63_creator.
Print Assumptions C63_last.
Print Assumptions C63_threshold_partial.
Print Assumptions C63_allowed.
Print Assumptions C63_reject_refuted.
Print Assumptions C63_blocked_refuted.
Print Assumptions C63_restart_refuted.
Print Assumptions C63_role_lost_refuted.
Print Assumptions C63_any_key_refuted.
Print Assumptions C64_key_of.
Print Assumptions C64_table.
Print Assumptions C64_current_partial.
Print Assumptions C64_no_exception_partial.
Print Assumptions C64_rotation_refuted.
Print Assumptions C64_no_key_refuted.
