(** Model of the life cycle of a node's BLS signer: crypto/bls/bls_key_manager.py and
    plenum/bls/bls_key_manager_file.py (the two key files), crypto/bls/bls_factory.py and
    plenum/bls/bls_crypto_factory.py (the signer made from them), plenum/server/node.py:884-908
    [update_bls_key], plenum/server/pool_manager.py:160-203, 284-338 (which NODE transactions lead
    to it). *)
From Coq Require Import List Arith Bool.
Import ListNotations.

Section Keys.
  (** The strings in the files and in transactions, secret and public keys are numbers.
      crypto/bls/indy_crypto/bls_crypto_indy_crypto.py:27-46 [bls_to_str], [bls_from_str]: [None] if
      the string is no base58 or the library refuses the bytes; 117-124 [generate_keys]: [fresh] is
      SignKey.new of the seed, [pub] is VerKey.new.  (The functions of the ursa library are not modelled.) *)
  Variables (parse_sk parse_pk : nat -> option nat) (print_sk print_pk pub fresh : nat -> nat).

  (** A signer: its secret and its public key, either may be None if the file did not parse
      (bls_crypto_factory.py:28-31 does not look at the result). *)
  Notation signer := (option nat * option nat)%type.

  (** A running node: bls_bft.bls_crypto_signer, and whether its own name is in node.nodeReg. *)
  Record mem := Mem { m_signer : option signer; in_reg : bool }.

  (** The two files; what the node's copy of the pool ledger says about the node: its key and, once
      there is a NODE transaction for it, whether it is a validator (this is also the cache
      _ordered_node_services of the running node, which is loaded from the ledger at the start and
      updated with each transaction); the memory if it is running. *)
  Record node := Node {
    sk_file : option nat; pk_file : option nat; ledger_key : option nat; services : option bool; memory : option mem }.
  Definition init : node := Node None None None None None.

  Inductive op :=
  | Init (sd : nat)                  (* scripts/init_bls_keys is run with this seed *)
  | WriteSk (c : nat) | WritePk (c : nat) (* only one file gets this content *)
  | Start | Stop
  | Own (key : option nat) (serv : option bool). (* a NODE transaction for this node; serv: whether
       VALIDATOR is in its SERVICES, if it has any *)

  (** bls_key_manager_file.py:39-43 [__save_to_file]; bls_key_manager.py:11-19 [save_keys]: the
      secret key first, then the public one *)
  Definition save_sk (c : nat) (s : node) : node := Node (Some c) (pk_file s) (ledger_key s) (services s) (memory s).
  Definition save_pk (c : nat) (s : node) : node := Node (sk_file s) (Some c) (ledger_key s) (services s) (memory s).
  Definition save_keys (sk pk : nat) (s : node) : node := save_pk pk (save_sk sk s).
  (** bls_factory.py:20-26 [generate_and_store_bls_keys], keygen_utils.py:27-34 [init_bls_keys] *)
  Definition init_bls_keys (sd : nat) (s : node) : node :=
    let sk := fresh sd in save_keys (print_sk sk) (print_pk (pub sk)) s.

  (** bls_key_manager.py:21-28 [load_keys]: LoadBLSKeyError (None) if a file is missing;
      bls_factory.py:28-32 [create_bls_crypto_signer_from_saved_keys] *)
  Definition saved_signer (s : node) : option signer :=
    match sk_file s, pk_file s with Some a, Some b => Some (parse_sk a, parse_pk b) | _, _ => None end.

  (** bls_factory.py:71-83 [create_bls_bft]; pool_manager.py:107-122 with
      stack_manager.py (parseLedgerForHaAndKeys): a validator of the ledger is in the registry *)
  Definition start (s : node) : node :=
    Node (sk_file s) (pk_file s) (ledger_key s) (services s)
      (Some (Mem (saved_signer s) (match services s with Some b => b | None => false end))).

  (** node.py:884-908 [update_bls_key]; the outer None: bls_to_str(None) raises AttributeError (897) *)
  Definition update_bls_key (k : nat) (s : node) : option (option signer) :=
    match saved_signer s with
    | None => Some None
    | Some (sk, None) => None
    | Some (sk, Some p) => if print_pk p =? k then Some (Some (sk, Some p)) else Some None
    end.

  (** pool_manager.py:284-318 [nodeServicesChanged] for this node: is it in the registry now? *)
  Definition services_changed (old : bool) (serv : option bool) (r : bool) : bool :=
    match serv with
    | None => r                                  (* 178: no SERVICES in the transaction *)
    | Some true => if old then r else true
    | Some false => if old then false else r
    end.

  (** pool_manager.py:160-203 [onPoolMembershipChange] for a NODE transaction of this node.  An error
      that is raised ends the node: the outer None. *)
  Definition on_membership (old : option bool) (key : option nat) (serv : option bool) (s : node) (m : mem) : option mem :=
    match old with
    | None => Some (Mem (m_signer m) (match serv with Some true => true | _ => in_reg m end)) (* 194-198 *)
    | Some o =>                                                                                (* 176-190 *)
        let r := services_changed o serv (in_reg m) in
        match key with
        | Some k =>
            if r then match update_bls_key k s with Some g => Some (Mem g r) | None => None end
            else Some (Mem (m_signer m) r)
        | None => Some (Mem (m_signer m) r)
        end
    end.

  Definition own_txn (key : option nat) (serv : option bool) (s : node) : node :=
    Node (sk_file s) (pk_file s)
      (match key with Some k => Some k | None => ledger_key s end)
      (match serv with Some b => Some b | None => match services s with None => Some false | x => x end end)
      (match memory s with Some m => on_membership (services s) key serv s m | None => None end).

  Definition step (s : node) (o : op) : node :=
    match o with
    | Init sd => init_bls_keys sd s
    | WriteSk c => save_sk c s
    | WritePk c => save_pk c s
    | Start => start s
    | Stop => Node (sk_file s) (pk_file s) (ledger_key s) (services s) None
    | Own key serv => own_txn key serv s
    end.
  Definition run (ops : list op) : node := fold_left step ops init.

  (** What the node puts into a Commit: bls_bft_replica_plenum.py:94-125 [update_commit], 229-231
      [_sign_state], bls_bft.py:19-20 [can_sign_bls]. *)
  Inductive commit := Down | Unsigned | Signed (sk : nat) | Raises.
  Definition commit_of (s : node) : commit :=
    match memory s with
    | None => Down
    | Some m => match m_signer m with
                | None => Unsigned
                | Some (Some sk, _) => Signed sk
                | Some (None, _) => Raises          (* Bls.sign with None *)
                end
    end.
End Keys.
