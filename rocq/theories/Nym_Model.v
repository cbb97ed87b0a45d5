(** Model of identities and of the authentication of requests: plenum/server/request_handlers/
    nym_handler.py, plenum/server/client_authn.py, plenum/server/req_authenticator.py,
    plenum/common/verifier.py, ClientMessageValidator.validate in
    plenum/common/messages/client_request.py, the identifier and digest of plenum/common/request.py,
    addNewRole, addGenesisNyms, execute_domain_txns and verifySignature in plenum/server/node.py.
    Identifiers, keys, signatures and digests are numbers; the domain state is what the transactions of
    the domain ledger make of it (C10-C14 for the trie). *)
From Coq Require Import List Arith Bool ZArith.
Import ListNotations.

Definition did := nat.
(** a key as written in a request: VerkeyField, fields.py:471-482 *)
Inductive vkey := VFull (k : nat) | VAbbr (a : nat).
(** roles.py:11-12; None is no role *)
Definition role := option nat.
Definition TRUSTEE : role := Some 0.
Definition STEWARD : role := Some 2.
Definition role_eqb (a b : role) : bool := match a, b with Some x, Some y => x =? y | None, None => true | _, _ => false end.

(** NYM operation: dest, role (missing counts as null, nym_handler.py:76), verkey (may be missing or null) *)
Record nymop := mkOp { o_dest : did; o_role : role; o_key : option (option vkey) }.
(** NYM transaction: its author and operation *)
Record txn := mkX { x_from : list did; x_op : nymop }.
(** nym_handler.py:66-87: the record of an identity *)
Record rec := mkRec { r_by : list did; r_role : role; r_key : option vkey }.
Definition state := list (did * rec).
Fixpoint get {V} (k : nat) (m : list (nat * V)) : option V :=
  match m with [] => None | (k', v) :: m' => if k' =? k then Some v else get k m' end.
Fixpoint set {V} (k : nat) (v : V) (m : list (nat * V)) : list (nat * V) :=
  match m with [] => [(k, v)] | (k', v') :: m' => if k' =? k then (k, v) :: m' else (k', v') :: set k v m' end.

(** nym_handler.py:58-88 [update_state] without the counter *)
Definition new_rec (old : option rec) (x : txn) : rec :=
  mkRec (match old with Some r => r_by r | None => x_from x end) (o_role (x_op x))
        (match o_key (x_op x) with Some k => k | None => match old with Some r => r_key r | None => None end end).
Definition update_state (s : state) (x : txn) : state := set (o_dest (x_op x)) (new_rec (get (o_dest (x_op x)) s) x) s.
Definition state_of (l : list txn) : state := fold_left update_state l [].
(** nym_handler.py:105-112 [__update_steward_count] *)
Definition was_steward (s : state) (d : did) : bool := match get d s with Some r => role_eqb (r_role r) STEWARD | None => false end.
Definition update_count (s : state) (c : Z) (x : txn) : Z :=
  let old := was_steward s (o_dest (x_op x)) in let new := role_eqb (o_role (x_op x)) STEWARD in
  if old && negb new then (c - 1)%Z else if negb old && new then (c + 1)%Z else c.
Fixpoint count_all (s : state) (c : Z) (l : list txn) : Z :=
  match l with [] => c | x :: l' => count_all (update_state s x) (update_count s c x) l' end.

(** utils.py:12-32 [is_steward]; an author who is several identifiers (request.py:155) has no record *)
Definition is_steward (s : state) (a : list did) : bool := match a with [d] => was_steward s d | _ => false end.

(** ** Requests *)
Inductive op := ONym (o : nymop) | OWrite (n : nat) | OQuery (n : nat).
Record request := mkQ {
  q_idr : option did; q_sig : option nat; q_sigs : option (list (did * nat)); q_endorser : option did;
  q_op : op; q_id : nat }.
(** request.py:133-134, 143, 150-153: the author; without identifier, the sorted signers *)
Fixpoint insert (d : did) (l : list did) : list did := match l with [] => [d] | e :: l' => if d <=? e then d :: l else e :: insert d l' end.
Fixpoint sort (l : list did) : list did := match l with [] => [] | d :: l' => insert d (sort l') end.
Definition sigs_of (q : request) : list (did * nat) := match q_sigs q with Some l => l | None => [] end.
Definition author (q : request) : list did := match q_idr q with Some d => [d] | None => sort (map fst (sigs_of q)) end.
(** client_authn.py:243-244: what is signed *)
Definition unsigned (q : request) : request := mkQ (q_idr q) None None (q_endorser q) (q_op q) (q_id q).
(** request.py:85-108: what the digest is taken of: the author in place of the identifier *)
Definition content (q : request) : list did * option nat * option (list (did * nat)) * option did * op * nat :=
  (author q, q_sig q, q_sigs q, q_endorser q, q_op q, q_id q).

Definition mem (d : did) (l : list did) : bool := existsb (Nat.eqb d) l.
(** client_request.py:207-230 [ClientMessageValidator.validate] *)
Definition validate (q : request) : bool :=
  let signers := map fst (sigs_of q) in let some := negb (length signers =? 0) in
  negb (some && match q_sig q with Some _ => true | None => false end) &&
  match q_endorser q with
  | Some e => some && mem e signers && match q_idr q with Some d => mem d signers | None => false end
  | None => true
  end &&
  match q_idr q with Some d => negb some || mem d signers | None => some end.

Section Nym.
  (** 32 bytes long, so that an identifier may be a key itself; that key; joining identifier and
      abbreviated key: verifier.py:30-43 *)
  Variable long : did -> bool.
  Variable own : did -> nat.
  Variable join : did -> nat -> nat.
  (** ed25519 *)
  Variable verifies : nat -> nat -> request -> bool.
  (** sha256 of the serialization *)
  Variable digest : list did * option nat * option (list (did * nat)) * option did * op * nat -> nat.
  Variable threshold : Z.      (* config.stewardThreshold *)

  (** verifier.py:25-51 [DidVerifier]; None is ValueError or InvalidKey *)
  Definition did_key (d : did) (v : option vkey) : option nat :=
    match v with
    | None => if long d then Some (own d) else None
    | Some (VFull k) => Some k
    | Some (VAbbr a) => if long d then None else Some (join d a)
    end.

  Record node := mkN {
    n_com : list txn;                              (* the NYM transactions of the domain ledger *)
    n_bs : list (list txn);                        (* those of the applied batches, oldest first *)
    n_count : Z;                                   (* NymHandler._steward_count *)
    n_clients : list (did * nat);                  (* SimpleAuthNr.clients *)
    n_seen : list (nat * option nat)               (* ReqAuthenticator._verified_reqs *)
  }.
  Definition head (n : node) : state := state_of (n_com n ++ concat (n_bs n)).

  (** nym_handler.py:33-47 *)
  Definition nym_ok (s : state) (c : Z) (x : txn) : bool :=
    is_steward s (x_from x) && negb (role_eqb (o_role (x_op x)) STEWARD && (threshold <=? c)%Z).
  (** a batch: each transaction is validated in the state and with the counter left by those before it
      (ordering_service.py:1138-1166); the ones applied, and the counter *)
  Fixpoint apply_batch (s : state) (c : Z) (xs : list txn) : list txn * Z :=
    match xs with
    | [] => ([], c)
    | x :: xs' =>
      if nym_ok s c x then let '(l, c') := apply_batch (update_state s x) (update_count s c x) xs' in (x :: l, c')
      else apply_batch s c xs'
    end.

  (** node.py:2806-2826 [addNewRole]; None is an exception *)
  Definition add_role (cl : list (did * nat)) (x : txn) : option (list (did * nat)) :=
    let d := o_dest (x_op x) in
    match did_key d (match o_key (x_op x) with Some k => k | None => None end) with
    | None => None
    | Some k =>
      match get d cl with
      | Some _ => Some cl
      | None => if role_eqb (o_role (x_op x)) STEWARD || role_eqb (o_role (x_op x)) TRUSTEE || role_eqb (o_role (x_op x)) None
                then Some ((d, k) :: cl) else Some cl
      end
    end.
  Fixpoint add_roles (cl : list (did * nat)) (xs : list txn) : option (list (did * nat)) :=
    match xs with [] => Some cl | x :: xs' => match add_role cl x with Some cl' => add_roles cl' xs' | None => None end end.

  (** client_authn.py:153-167, 178-192 [getVerkey], [nym_specific_auth]; utils.py:59-65. The request is
      looked at whoever the signer is *)
  Definition get_verkey (n : node) (d : did) (q : request) : option vkey :=
    match get d (n_clients n) with
    | Some k => Some (VFull k)
    | None =>
      match get d (head n) with
      | Some r => r_key r
      | None =>
        match q_op q, q_idr q with
        | ONym o, Some i => if i =? o_dest o then match o_key o with Some k => k | None => None end else None
        | _, _ => None
        end
      end
    end.
  (** client_authn.py:84-117 [authenticate_multi] without threshold: all signatures, and at least one *)
  Definition sig_ok (n : node) (q : request) (ds : did * nat) : bool :=
    match get_verkey n (fst ds) q with
    | None => false
    | Some v => match did_key (fst ds) (Some v) with Some k => verifies k (snd ds) (unsigned q) | None => false end
    end.
  (** client_authn.py:230-266 [CoreAuthMixin.authenticate]: the signatures looked at *)
  Definition signatures (q : request) : list (did * nat) :=
    match q_idr q, q_sig q with Some d, Some s => [(d, s)] | _, _ => sigs_of q end.
  Definition authenticate (n : node) (q : request) : bool :=
    negb (length (signatures q) =? 0) && forallb (sig_ok n q) (signatures q).
  Definition opt_eqb (a b : option nat) : bool := match a, b with Some x, Some y => x =? y | None, None => true | _, _ => false end.
  (** req_authenticator.py:22-57, node.py:1618-1660, 2624-2655: a request of a client, or one that came
      with a PROPAGATE: whether it is accepted, and the requests seen *)
  Definition accept (n : node) (q : request) : bool * list (nat * option nat) :=
    if negb (validate q) then (false, n_seen n)
    else match get (digest (content q)) (n_seen n) with
    | Some s => if opt_eqb (q_sig q) s then (true, n_seen n)
                else match q_op q with OQuery _ => (true, n_seen n) | _ => if authenticate n q then (true, set (digest (content q)) (q_sig q) (n_seen n)) else (false, n_seen n) end
    | None => match q_op q with OQuery _ => (true, n_seen n) | _ => if authenticate n q then (true, set (digest (content q)) (q_sig q) (n_seen n)) else (false, n_seen n) end
    end.

  Inductive event :=
  | EBatch (xs : list txn)      (* a batch with these NYM requests is applied *)
  | ECommit                     (* the oldest applied batch is executed *)
  | EReject                     (* the youngest applied batch is reverted *)
  | ECaught (x : txn)           (* catch-up adds a transaction *)
  | ERestart (rebuilt : bool)   (* a restart; [rebuilt]: the state had to be made from the ledger *)
  | ERequest (q : request)
  | EClean (key : nat).         (* req_authenticator.py:70-72 *)
  Definition step (n : node) (e : event) : option node :=
    match e with
    | EBatch xs => let '(l, c) := apply_batch (head n) (n_count n) xs in Some (mkN (n_com n) (n_bs n ++ [l]) c (n_clients n) (n_seen n))
    (** node.py:532-542 [execute_domain_txns] *)
    | ECommit =>
      match n_bs n with
      | [] => Some n
      | b :: bs => match add_roles (n_clients n) b with Some cl => Some (mkN (n_com n ++ b) bs (n_count n) cl (n_seen n)) | None => None end
      end
    (** write_request_manager.py:187-193: no request handler is told *)
    | EReject => Some (mkN (n_com n) (removelast (n_bs n)) (n_count n) (n_clients n) (n_seen n))
    (** node.py:1748-1765, 1916-1918; write_request_manager.py:136-146 *)
    | ECaught x =>
      match n_bs n with
      | _ :: _ => Some n
      | [] => match add_role (n_clients n) x with
              | Some cl => Some (mkN (n_com n ++ [x]) [] (update_count (head n) (n_count n) x) cl (n_seen n))
              | None => None
              end
      end
    (** node.py:204-206, 2828-2832 [addGenesisNyms]; nym_handler.py:26 *)
    | ERestart rebuilt =>
      match add_roles [] (n_com n) with
      | Some cl => Some (mkN (n_com n) [] (if rebuilt then count_all [] 0 (n_com n) else 0%Z) cl [])
      | None => None
      end
    | ERequest q => Some (mkN (n_com n) (n_bs n) (n_count n) (n_clients n) (snd (accept n q)))
    | EClean k => Some (mkN (n_com n) (n_bs n) (n_count n) (n_clients n) (filter (fun y => negb (fst y =? k)) (n_seen n)))
    end.
  Fixpoint run (n : node) (es : list event) : option node :=
    match es with [] => Some n | e :: es' => match step n e with Some m => run m es' | None => None end end.
  (** a node with a genesis ledger, started for the first time *)
  Definition init (g : list txn) : option node :=
    match add_roles [] g with Some cl => Some (mkN g [] (count_all [] 0 g) cl []) | None => None end.
End Nym.
