(** Model of the transport keys a node keeps for the other nodes and of whom its node stack is set up to let in:
    plenum/common/stack_manager.py:23-98 (keys from the ledger), 100-126 (connectNewRemote), 176-194 (stackKeysChanged),
    208-224 (addRemoteKeysFromLedger), plenum/server/pool_manager.py:128-142, 160-215, 263-328,
    stp_zmq/zstack.py:206-219 (initRemoteKeys), 322-330 (setupAuth), 347-360 (start), stp_zmq/authenticator.py:14-31.
    Keys, names and identifiers are numbers; an identifier is a key (cryptonymToHex is one-to-one, C99).  A file x.key in a
    directory is an entry of a dictionary.  Simplified: no abbreviated keys; a node's
    first transaction has its addresses; writing files does not fail; the services of
    a node known to the pool manager are those of the ledger, also after a restart (C59). *)
From Coq Require Import Ascii String Decimal DecimalString List Arith Bool.
Import ListNotations.

(** a directory of key files: name of the file, public part of the key *)
Definition dir := list (nat * nat).
(** reading x.key: the key in the file of that name *)
Fixpoint get (d : dir) (a : nat) : option nat :=
  match d with [] => None | (b, k) :: q => if b =? a then Some k else get q a end.
(** stp_zmq/util.py:17-26 [createCertsFromKeys]: an existing file is written over *)
Fixpoint put (d : dir) (a k : nat) : dir :=
  match d with [] => [(a, k)] | (b, l) :: q => if b =? a then (b, k) :: q else (b, l) :: put q a k end.

(** a NODE transaction: [nym]: TARGET_NYM; [verkey]: VERKEY; [services]: SERVICES, [true] if VALIDATOR is in it *)
Record txn := Txn { alias : nat; nym : nat; verkey : option nat; services : option bool }.
(** [verif], [pub]: the directories verif_keys and public_keys; [seen]: _ordered_node_services, by nym; [loaded]: the keys
    the authenticator of the running stack has; [None]: CURVE_ALLOW_ANY or not started *)
Record node := Node { ledger : list txn; verif : dir; pub : dir; seen : list (nat * bool); loaded : option (list nat) }.
(** the newest entry for a nym or a name *)
Fixpoint was (l : list (nat * bool)) (n : nat) : option bool :=
  match l with [] => None | (m, b) :: q => if m =? n then Some b else was q n end.

Section Keys.
(** ed25519PkToCurve25519 *)
Variable conv : nat -> nat.
(** the name of this node *)
Variable own : nat.

(** zstack.py:206-219 [initRemoteKeys]; [override] is not looked at *)
Definition init_remote (n : node) (a vk : nat) : node :=
  Node (ledger n) (put (verif n) a vk) (put (pub n) a (conv vk)) (seen n) (loaded n).
(** pool_manager.py:206-215, 273-279, 305-307: the node leaves its own files alone *)
Definition init_other (n : node) (a vk : nat) : node := if a =? own then n else init_remote n a vk.
(** pool_manager.py:197, 200 [_set_node_services_in_cache] *)
Definition set_seen (n : node) (m : nat) (b : bool) : node := Node (ledger n) (verif n) (pub n) ((m, b) :: seen n) (loaded n).

(** pool_manager.py:160-202 [onPoolMembershipChange]; 204-215 [addNewNodeAndConnect], 284-328 [nodeServicesChanged],
    263-282 [nodeKeysChanged].  A node whose validator service is taken away loses its remote, not its key files *)
Definition on_txn (n : node) (t : txn) : node :=
  let n := Node (ledger n ++ [t]) (verif n) (pub n) (seen n) (loaded n) in
  match was (seen n) (nym t) with
  | None =>
      let v := match services t with Some true => true | _ => false end in
      set_seen (if v then init_other n (alias t) (nym t) else n) (nym t) v
  | Some b =>
      let v := match services t with Some s => s | None => b end in
      let n := if v && negb b then init_other n (alias t) (nym t) else n in
      let n := match verkey t with Some k => if v then init_other n (alias t) k else n | None => n end in
      set_seen n (nym t) v
  end.

(** stack_manager.py:57-98 [_parse_pool_transaction_file]: [nodeKeys] and [activeValidators] *)
Definition parse1 (s : dir * list (nat * bool)) (t : txn) : dir * list (nat * bool) :=
  (put (fst s) (alias t) (nym t), match services t with Some b => (alias t, b) :: snd s | None => snd s end).
(** stack_manager.py:48: [nodeName in activeValidators] *)
Definition is_active (act : list (nat * bool)) (a : nat) : bool := match was act a with Some b => b | None => false end.
(** stack_manager.py:23-55 [parseLedgerForHaAndKeys] *)
Definition node_keys (l : list txn) : dir :=
  let (keys, act) := fold_left parse1 l ([], []) in filter (fun p => is_active act (fst p)) keys.
(** zstack.py:322-330 [setupAuth]: configure_curve reads the certificates now *)
Definition start (n : node) (restricted : bool) : node :=
  Node (ledger n) (verif n) (pub n) (seen n) (if restricted then Some (map snd (pub n)) else None).
(** pool_manager.py:128-133, stack_manager.py:208-224, then the stack is started; pool_manager.py:142: restricted *)
Definition restart (n : node) : node :=
  start (fold_left (fun n p => init_remote n (fst p) (snd p)) (node_keys (ledger n)) n) true.

(** what happens to a node: a NODE transaction is committed; the node is started (again) *)
Inductive op := NodeTxn (t : txn) | Restart.
Definition step (n : node) (o : op) : node := match o with NodeTxn t => on_txn n t | Restart => restart n end.
Definition run (n : node) (os : list op) : node := fold_left step os n.
End Keys.
(** a home with no keys of others yet *)
Definition init : node := Node [] [] [] [] None.

(** *** the authenticator *)
(** authenticator.py:19-30: the address its socket is bound to, [count] being the number of authenticators made *)
Definition zap_address (count : nat) : string := ("inproc://zeromq.zap." ++ NilEmpty.string_of_uint (Nat.to_uint count))%string.
(** libzmq asks the socket bound to this address (ZeroMQ RFC 27), and lets everybody in when there is none *)
Definition asked : string := "inproc://zeromq.zap.01"%string.
Definition lets_in (bound : list string) (loaded : option (list nat)) (k : nat) : bool :=
  if existsb (String.eqb asked) bound then match loaded with Some l => existsb (Nat.eqb k) l | None => true end else true.
