(** Model of BLS multi-signatures over states:
    plenum/bls/bls_bft_replica_plenum.py (BlsBftReplicaPlenum), bls_key_register_pool_manager.py,
    bls_store.py, crypto/bls/bls_multi_signature.py, and where ordering_service.py calls them.
    The signature scheme and the keys of a pool state are parameters. *)
From Coq Require Import List Arith Bool.
From Verif Require Import Quorum_Model Dict.
Import ListNotations.

(** An exception raised by the code ends the run. *)
Inductive outcome (A : Type) := Ok (a : A) | Raise.
Arguments Ok {A}. Arguments Raise {A}.
Definition bind {A B} (x : outcome A) (f : A -> outcome B) : outcome B := match x with Ok a => f a | Raise => Raise end.

Definition name := nat.
Definition root := nat.
(** (view, place) *)
Definition key := (nat * nat)%type.
Definition key_eqb (a b : key) : bool := (fst a =? fst b) && (snd a =? snd b).
(** util.py:322-342 [compare_3PC_keys(a, b) >= 0]: [a] is not after [b] *)
Definition key_leb (a b : key) : bool := if fst a =? fst b then snd a <=? snd b else fst a <? fst b.

(** bls_multi_signature.py:7-70 [MultiSignatureValue]; [as_single_value] is taken to be injective. *)
Record value := Value { v_ledger : nat; v_state : root; v_pool : root; v_txn : root; v_time : nat }.

(** An optional, nullable field of a message (message_base.py) *)
Inductive field (A : Type) := Missing | Null | Val (a : A).
Arguments Missing {A}. Arguments Null {A}. Arguments Val {A}.

(** audit_batch_handler.py:121-160: a ledger root or how many transactions back it stands *)
Inductive entry := Hash (r : root) | Delta (d : nat).
(** The parts of an audit transaction that are signed *)
Record audit_txn := Audit { a_seq : nat; a_states : dict root; a_ledgers : dict entry }.

Section Bls.
  (** ursa: keys, signatures, multi-signatures *)
  Variables (vk sig msig : Type).
  Variable verify : sig -> value -> vk -> bool.
  Variable aggregate : list sig -> msig.
  Variable verify_multi : msig -> value -> list vk -> bool.
  (** The BLS keys in the pool state with this root (see [load_keys]); None: no such state, KeyError *)
  Variable keys : root -> option (name -> option vk).
  (** Python's [int] and [str]; texts are numbered *)
  Variable int_of : nat -> nat.
  Variable str_of : nat -> nat.

  Record multi_sig := MultiSig { ms_sig : msig; ms_parts : list name; ms_value : value }.

  (** PrePrepare (node_messages.py:118-163), the fields used here *)
  Record pre_prepare := PrePrepare { pp_view : nat; pp_seq : nat; pp_time : nat; pp_pool : field root;
    pp_multi : option (list multi_sig) }.
  Definition pp_key (pp : pre_prepare) : key := (pp_view pp, pp_seq pp).
  (** Commit (node_messages.py:199-213): signatures by the text of the ledger id *)
  Record commit := Commit { c_view : nat; c_seq : nat; c_sigs : option (dict sig) }.
  Definition c_key (c : commit) : key := (c_view c, c_seq c).

  (** bls_bft_replica_plenum.py:319-331 [_get_correct_audit_transaction] *)
  Definition audit_for (audit : list audit_txn) (pp : pre_prepare) : option audit_txn :=
    find (fun t => pp_seq pp =? a_seq t) (rev audit).

  (** 334-354 [_create_fake_pre_prepare_for_multi_sig] and 182-188: the value signed for a ledger.
      A missing pool state root raises AttributeError, a null one cannot be decoded (291-293), a
      ledger root that is not a hash fails the validation of PrePrepare (an int) or of the value
      (None). *)
  Definition value_for (lid : nat) (state : root) (ledger : option entry) (pp : pre_prepare) : outcome value :=
    match pp_pool pp, ledger with
    | Val pool, Some (Hash txn) => Ok (Value lid state pool txn (pp_time pp))
    | _, _ => Raise
    end.

  (** 193-209 [_validate_signature] *)
  Definition validate_signature (sender : name) (s : sig) (v : value) : outcome bool :=
    match keys (v_pool v) with
    | None => Raise
    | Some reg => match reg sender with None => Ok false | Some k => Ok (verify s v k) end
    end.

  (** 211-224 [_validate_multi_sig]: participants without a key are left out *)
  Definition present (reg : name -> option vk) (names : list name) : list vk :=
    flat_map (fun x => match reg x with Some k => [k] | None => [] end) names.
  Definition validate_multi_sig (m : multi_sig) : outcome bool :=
    match keys (v_pool (ms_value m)) with
    | None => Raise
    | Some reg => Ok (verify_multi (ms_sig m) (ms_value m) (present reg (ms_parts m)))
    end.

  (** 43-50 [validate_pre_prepare]: accepted? *)
  Fixpoint all_valid (ms : list multi_sig) : outcome bool :=
    match ms with
    | [] => Ok true
    | m :: ms' => bind (validate_multi_sig m) (fun b => if b then all_valid ms' else Ok false)
    end.
  Definition validate_pre_prepare (pp : pre_prepare) : outcome bool :=
    match pp_multi pp with Some ms => all_valid ms | None => Ok true end.

  (** 55-77 [validate_commit] *)
  Fixpoint sigs_valid (t : audit_txn) (pp : pre_prepare) (sender : name) (l : dict sig) : outcome bool :=
    match l with
    | [] => Ok true
    | (txt, s) :: l' =>
        let lid := int_of txt in
        match get lid (a_states t), get lid (a_ledgers t) with
        | Some r, Some e =>
            bind (value_for lid r (Some e) pp) (fun v =>
            bind (validate_signature sender s v) (fun b => if b then sigs_valid t pp sender l' else Ok false))
        | _, _ => Ok false
        end
    end.
  Definition validate_commit (audit : list audit_txn) (c : commit) (sender : name) (pp : pre_prepare) : outcome bool :=
    match c_sigs c, audit_for audit pp with
    | Some l, Some t => sigs_valid t pp sender l
    | _, _ => Ok true
    end.

  (** 99-130 [update_commit]: the signatures of an own Commit *)
  Fixpoint sign_all (sign : value -> sig) (t : audit_txn) (pp : pre_prepare) (l : dict root) : outcome (dict sig) :=
    match l with
    | [] => Ok []
    | (lid, r) :: l' =>
        bind (value_for lid r (get lid (a_ledgers t)) pp) (fun v =>
        bind (sign_all sign t pp l') (fun d => Ok ((str_of lid, sign v) :: d)))
    end.
  Definition update_commit (signer : option (value -> sig)) (audit : list audit_txn) (pp : pre_prepare) : outcome (option (dict sig)) :=
    match signer, audit_for audit pp with
    | Some sign, Some t => bind (sign_all sign t pp (a_states t)) (fun d => Ok (Some d))
    | _, _ => Ok None
    end.

  (** 24-33: signatures by batch, text of the ledger id and node; the latest multi-signatures; the
      store (bls_store.py), by state root.  [b_last]: the last ordered batch, of the ordering
      service. *)
  Definition sig_dict := dict (dict sig).
  Record state := State { b_sigs : list (key * sig_dict); b_latest : option (list multi_sig);
    b_store : dict multi_sig; b_last : key }.
  Definition init : state := State [] None [] (0, 0).
  Fixpoint kget (k : key) (l : list (key * sig_dict)) : option sig_dict :=
    match l with [] => None | (k', d) :: l' => if key_eqb k k' then Some d else kget k l' end.
  Fixpoint kset (k : key) (d : sig_dict) (l : list (key * sig_dict)) : list (key * sig_dict) :=
    match l with [] => [(k, d)] | (k', d') :: l' => if key_eqb k k' then (k, d) :: l' else (k', d') :: kset k d l' end.

  (** 142-150 [process_commit] *)
  Definition add_sig (sender : name) (d : sig_dict) (x : nat * sig) : sig_dict :=
    set (fst x) (set sender (snd x) (get_or (fst x) ([] : dict sig) d)) d.
  Definition process_commit (c : commit) (sender : name) (st : state) : state :=
    match c_sigs c with
    | None => st
    | Some l =>
        let d := match kget (c_key c) (b_sigs st) with Some d => d | None => [] end in
        State (kset (c_key c) (fold_left (add_sig sender) l d) (b_sigs st)) (b_latest st) (b_store st) (b_last st)
    end.

  (** 233-260 [_can_calculate_multi_sig] *)
  Definition can_calculate (q : quorums) (k : key) (st : state) : bool :=
    match kget k (b_sigs st) with
    | None => false
    | Some d => forallb (fun x => is_reached (bls_signatures q) (length (snd x))) d
    end.

  (** 262-287 [_calculate_all_multi_sigs], [_calculate_single_multi_sig] *)
  Definition single (d : dict sig) (v : value) : multi_sig := MultiSig (aggregate (map snd d)) (map fst d) v.
  Fixpoint calculate_all (t : audit_txn) (pp : pre_prepare) (d : sig_dict) : outcome (list multi_sig) :=
    match d with
    | [] => Ok []
    | (txt, sigs) :: d' =>
        match get (int_of txt) (a_states t), get (int_of txt) (a_ledgers t) with
        | Some r, Some e =>
            bind (value_for (int_of txt) r (Some e) pp) (fun v =>
            bind (calculate_all t pp d') (fun l => Ok (single sigs v :: l)))
        | _, _ => Raise
        end
    end.
  Definition calculate (audit : list audit_txn) (pp : pre_prepare) (k : key) (st : state) : outcome (list multi_sig) :=
    match kget k (b_sigs st), audit_for audit pp with
    | Some d, Some t => calculate_all t pp d
    | _, _ => Ok []
    end.

  (** bls_store.py:22-27: under the state root of the value *)
  Definition put (st : dict multi_sig) (m : multi_sig) : dict multi_sig := set (v_state (ms_value m)) m st.

  (** 152-171 [process_order] *)
  Definition process_order (q : quorums) (master : bool) (audit : list audit_txn) (pp : pre_prepare) (st : state)
    : outcome (state * list multi_sig) :=
    if negb (can_calculate q (pp_key pp) st) then Ok (st, [])
    else bind (calculate audit pp (pp_key pp) st) (fun l =>
      if negb master then Ok (st, [])
      else Ok (State (b_sigs st) (Some l) (fold_left put l (b_store st)) (b_last st), l)).

  (** 175-181 [gc] *)
  Definition gc (k : key) (st : state) : state :=
    State (filter (fun x => negb (key_leb (fst x) k)) (b_sigs st)) (b_latest st) (b_store st) (b_last st).

  (** 136-139, 309-317: the multi-signatures of a PrePrepare *)
  Definition process_pre_prepare (pp : pre_prepare) (st : state) : state :=
    match pp_multi pp with
    | None => st
    | Some ms => State (b_sigs st) (b_latest st) (fold_left put ms (b_store st)) (b_last st)
    end.

  (** ** The calls of ordering_service.py.  [audit]: the audit ledger with the transactions of
      batches not committed yet, [pp]: the PrePrepare that the replica has for the Commit. *)
  Inductive event :=
  | EPrePrepare (pp : pre_prepare) (applied : bool)                                  (* 862, 936 *)
  | ECommit (audit : list audit_txn) (c : commit) (sender : name) (pp : pre_prepare) (* 469-487, 1449 *)
  | EOwn (signer : option (value -> sig)) (audit : list audit_txn) (pp : pre_prepare) (* 1431-1440 *)
  | EOrder (audit : list audit_txn) (pp : pre_prepare)                               (* 1530 *)
  | ESend                                                                            (* 2097 *)
  | EGc (k : key)                                                                    (* 792 *)
  | ELast (k : key).                       (* the last ordered batch moves on by catch-up or view change *)
  Inductive output :=
  | OCommit (pp : pre_prepare) (l : option (dict sig)) (* sent *)
  | OWrong (sender : name)                             (* reported *)
  | OMulti (pp : pre_prepare) (m : multi_sig)          (* calculated and stored *)
  | OShared (m : multi_sig)                            (* stored from a PrePrepare *)
  | OSent (l : list multi_sig).                        (* put into a PrePrepare *)

  Record config := Config { me : name; quo : quorums; master : bool }.

  (** Commits for ordered batches are not checked, ordered batches are not ordered again
      (ordering_service.py:474, 1456).  Taking a batch as ordered moves [b_last]. *)
  Definition step (cfg : config) (st : state) (e : event) : outcome (state * list output) :=
    match e with
    | EPrePrepare pp applied =>
        bind (validate_pre_prepare pp) (fun ok =>
        if ok && applied && master cfg then Ok (process_pre_prepare pp st, match pp_multi pp with Some l => map OShared l | None => [] end)
        else Ok (st, []))
    | ECommit audit c sender pp =>
        bind (if key_leb (c_key c) (b_last st) then Ok true else validate_commit audit c sender pp) (fun ok =>
        if ok then Ok (process_commit c sender st, []) else Ok (st, [OWrong sender]))
    | EOwn signer audit pp =>
        bind (update_commit signer audit pp) (fun l =>
        Ok (process_commit (Commit (pp_view pp) (pp_seq pp) l) (me cfg) st, [OCommit pp l]))
    | EOrder audit pp =>
        if key_leb (pp_key pp) (b_last st) then Ok (st, [])
        else bind (process_order (quo cfg) (master cfg) audit pp st) (fun x =>
          Ok (State (b_sigs (fst x)) (b_latest (fst x)) (b_store (fst x)) (pp_key pp), map (OMulti pp) (snd x)))
    | ESend => match b_latest st with
               | None => Ok (st, [])
               | Some l => Ok (State (b_sigs st) None (b_store st) (b_last st), [OSent l]) (* 82-95 *)
               end
    | EGc k => Ok (gc k st, [])
    | ELast k => Ok (if key_leb (b_last st) k then State (b_sigs st) (b_latest st) (b_store st) k else st, [])
    end.
  Fixpoint run (cfg : config) (st : state) (es : list event) : outcome (state * list output) :=
    match es with
    | [] => Ok (st, [])
    | e :: es' => bind (step cfg st e) (fun x => bind (run cfg (fst x) es') (fun y => Ok (fst y, snd x ++ snd y)))
    end.

  (** ** bls_key_register_pool_manager.py *)
  (** the data of a node in the pool state; keys are decoded by ursa, which may fail *)
  Record node_data := NodeData { alias : name; bls_key : option nat; bls_proof : option nat }.
  Variable decode : nat -> option vk.
  (** 31-53 [_load_keys_for_root] *)
  Definition load_keys (without_proof : bool) (l : list node_data) : dict (option vk) :=
    fold_left (fun d n =>
      match bls_key n with
      | None => d
      | Some k =>
          if negb without_proof && match bls_proof n with None => true | _ => false end then set (alias n) None d
          else set (alias n) (decode k) d
      end) l [].
  (** the pool state with this root *)
  Variable pool_state : root -> option (list node_data).
  Record register := Register { r_keys : dict (option vk); r_root : option root }.
  Definition no_keys : register := Register [] None.
  (** 21-29 [get_key_by_name].  When the state cannot be read, the exception leaves the register
      with the new root and without keys. *)
  Definition get_key (without_proof : bool) (r : register) (x : name) (pool : root) : register * outcome (option vk) :=
    let look (r : register) := match get x (r_keys r) with Some o => o | None => None end in
    if match r_root r with Some p => p =? pool | None => false end then (r, Ok (look r))
    else match pool_state pool with
         | None => (Register [] (Some pool), Raise)
         | Some l => let r' := Register (load_keys without_proof l) (Some pool) in (r', Ok (look r'))
         end.
  (** what the register says when asked for the first time *)
  Definition keys_of (without_proof : bool) (pool : root) : option (name -> option vk) :=
    match pool_state pool with
    | None => None
    | Some l => Some (fun x => match get x (load_keys without_proof l) with Some o => o | None => None end)
    end.
End Bls.

Arguments MultiSig {msig}. Arguments ms_sig {msig}. Arguments ms_parts {msig}. Arguments ms_value {msig}.
Arguments PrePrepare {msig}. Arguments pp_view {msig}. Arguments pp_seq {msig}. Arguments pp_time {msig}.
Arguments pp_pool {msig}. Arguments pp_multi {msig}. Arguments pp_key {msig}.
Arguments Commit {sig}. Arguments c_view {sig}. Arguments c_seq {sig}. Arguments c_sigs {sig}. Arguments c_key {sig}.
Arguments audit_for {msig}. Arguments value_for {msig}. Arguments validate_signature {vk sig}. Arguments present {vk}.
Arguments validate_multi_sig {vk msig}. Arguments all_valid {vk msig}. Arguments validate_pre_prepare {vk msig}.
Arguments sigs_valid {vk sig msig}. Arguments validate_commit {vk sig msig}. Arguments sign_all {sig msig}.
Arguments update_commit {sig msig}. Arguments State {sig msig}. Arguments b_sigs {sig msig}. Arguments b_latest {sig msig}.
Arguments b_store {sig msig}. Arguments b_last {sig msig}. Arguments init {sig msig}. Arguments kget {sig}. Arguments kset {sig}.
Arguments add_sig {sig}. Arguments process_commit {sig msig}. Arguments can_calculate {sig msig}. Arguments single {sig msig}.
Arguments calculate_all {sig msig}. Arguments calculate {sig msig}. Arguments put {msig}. Arguments process_order {sig msig}.
Arguments gc {sig msig}. Arguments process_pre_prepare {sig msig}.
Arguments EPrePrepare {sig msig}. Arguments ECommit {sig msig}. Arguments EOwn {sig msig}. Arguments EOrder {sig msig}.
Arguments ESend {sig msig}. Arguments EGc {sig msig}. Arguments ELast {sig msig}.
Arguments OCommit {sig msig}. Arguments OWrong {sig msig}. Arguments OMulti {sig msig}. Arguments OShared {sig msig}. Arguments OSent {sig msig}.
Arguments step {vk sig msig}. Arguments run {vk sig msig}. Arguments load_keys {vk}. Arguments r_keys {vk}. Arguments r_root {vk}.
Arguments Register {vk}. Arguments no_keys {vk}. Arguments get_key {vk}. Arguments keys_of {vk}.
