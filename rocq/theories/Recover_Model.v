(** Model of what a node writes to disk, and in which order, when it commits a batch, when it adds
    transactions during catch-up and when it creates its states at the start:
    write_request_manager.py:136-146 and 178-185, batch_request_handler.py:37-53,
    ledgers_bootstrap.py:208-275, node.py:922, 1748-1767 and 2748-2759,
    catchup_rep_service.py:436-438, node_leecher_service.py:177-224.

    A ledger is the list of its transactions: adding one transaction to a ledger is taken to be
    atomic (C07 says so up to recovery). A state is any value with an update function: making the
    committed root point to another trie is one put (pruning_state.py:98). The timestamp store, the
    BLS store and the node status database are left out. *)
From Coq Require Import List Arith Bool.
From Verif Require Import Base Dict.
Import ListNotations.

Section Recover.
  Variable txn : Type.
  Variable St : Type.
  (** [update_state] of the handlers of the transaction's type, on the state of its ledger *)
  Variable up : nat -> St -> txn -> St.
  Variable blank : St.
  (** pruning_state.py:153-154 [isEmpty] *)
  Variable is_blank : St -> bool.
  (** the ledgers with a state, in the order in which they are synchronized *)
  Variable lids : list nat.

  (** [d_audit]: the AUDIT_TXN_LEDGERS_SIZE of each audit transaction; [d_index]: seqNoDB, which
      transactions (ledger, position counted from 0) can be found by their digests. *)
  Record disk := mkDisk { d_led : nat -> list txn; d_st : nat -> St; d_audit : list (dict nat); d_index : list (nat * nat) }.

  Inductive write := WTxn (lid : nat) (t : txn) | WState (lid : nat) (s : St) | WAudit (a : dict nat) | WIndex (l : list (nat * nat)).
  Definition put {V} (f : nat -> V) (k : nat) (v : V) : nat -> V := fun x => if x =? k then v else f x.
  Definition perform (d : disk) (w : write) : disk :=
    match w with
    | WTxn lid t => mkDisk (put (d_led d) lid (d_led d lid ++ [t])) (d_st d) (d_audit d) (d_index d)
    | WState lid s => mkDisk (d_led d) (put (d_st d) lid s) (d_audit d) (d_index d)
    | WAudit a => mkDisk (d_led d) (d_st d) (d_audit d ++ [a]) (d_index d)
    | WIndex l => mkDisk (d_led d) (d_st d) (d_audit d) (d_index d ++ l)
    end.
  Definition performs (d : disk) (ws : list write) : disk := fold_left perform ws d.

  (** node.py:2753-2756 [commitAndSendReplies]: write_manager.commit_batch runs the handlers of the
      ledger in the order of their registration, the ledger's own first (batch_request_handler.py:
      37-53: the transactions one by one, then the state's root) and the audit handler last
      (ledgers_bootstrap.py:170-203); the index follows. The state root of the batch is that which
      its transactions give. *)
  Definition commit_writes (d : disk) (lid : nat) (txns : list txn) : list write :=
    map (WTxn lid) txns ++
    [WState lid (fold_left (up lid) txns (d_st d lid));
     WAudit (map (fun l => (l, length (d_led d l) + if l =? lid then length txns else 0)) lids);
     WIndex (map (fun i => (lid, length (d_led d lid) + i)) (seq 0 (length txns)))].

  (** catchup_rep_service.py:436-438 [_add_txn], with node.py:1748-1767
      [postTxnFromCatchupAddedToLedger] and write_request_manager.py:136-146 [restore_state] *)
  Fixpoint add_writes (lid : nat) (pos : nat) (s : St) (txns : list txn) : list write :=
    match txns with
    | [] => []
    | t :: ts => WTxn lid t :: WState lid (up lid s t) :: WIndex [(lid, pos)] :: add_writes lid (S pos) (up lid s t) ts
    end.
  (** node_leecher_service.py: the audit ledger first, then every ledger up to the size in the last
      audit transaction, or not at all if it is not shorter. [others_audit] and [others] are what
      the other nodes serve. *)
  Definition ledger_writes (d : disk) (target : option nat) (others : list txn) (lid : nat) : list write :=
    match target with
    | None => []
    | Some n => add_writes lid (length (d_led d lid)) (d_st d lid) (skipn (length (d_led d lid)) (firstn n others))
    end.
  Definition catchup_writes (d : disk) (others_audit : list (dict nat)) (others : nat -> list txn) : list write :=
    map WAudit (skipn (length (d_audit d)) others_audit) ++
    flat_map (fun lid => ledger_writes d (get lid (last others_audit [])) (others lid) lid) lids.

  (** ledgers_bootstrap.py:208-275 [upload_states], [_init_state_from_ledger]: a state that is empty
      is created from the ledger, one transaction after the other, each committed at once
      (write_request_manager.py:146) *)
  Fixpoint restore_writes (lid : nat) (s : St) (txns : list txn) : list write :=
    match txns with [] => [] | t :: ts => WState lid (up lid s t) :: restore_writes lid (up lid s t) ts end.
  Definition start_writes (d : disk) : list write :=
    flat_map (fun lid => if is_blank (d_st d lid) then restore_writes lid (d_st d lid) (d_led d lid) else []) lids.

  (** ** Histories of a node
      [batches]: the batches the pool orders, each for one ledger; [gen]: the genesis transactions. *)
  Variable batches : list (nat * list txn).
  Variable gen : nat -> list txn.

  (** the content of a ledger, and the sizes in the audit transaction, after [k] batches *)
  Definition agreed (k : nat) (lid : nat) : list txn :=
    gen lid ++ flat_map (fun b => if fst b =? lid then snd b else []) (firstn k batches).
  Definition agreed_audit (k : nat) : list (dict nat) :=
    map (fun i => map (fun l => (l, length (agreed (S i) l))) lids) (seq 0 k).

  (** [JStart]: the node process starts. [JCommit]: the node commits the next batch. [JCatchup m]: it
      catches up with nodes that have committed [m] batches. *)
  Inductive job := JStart | JCommit | JCatchup (m : nat).
  Definition job_writes (d : disk) (j : job) : list write :=
    match j with
    | JStart => start_writes d
    | JCommit => match nth_error batches (length (d_audit d)) with Some (lid, txns) => commit_writes d lid txns | None => [] end
    | JCatchup m => catchup_writes d (agreed_audit m) (agreed m)
    end.
  (** a job is done whole, or cut short by a crash after some of its writes *)
  Definition jstep (d : disk) (jc : job * option nat) : disk :=
    performs d (match snd jc with None => job_writes d (fst jc) | Some n => firstn n (job_writes d (fst jc)) end).
  Definition jrun (d : disk) (js : list (job * option nat)) : disk := fold_left jstep js d.

  Definition genesis_disk : disk := mkDisk gen (fun _ => blank) [] [].
End Recover.
Arguments mkDisk {txn St}.
Arguments d_led {txn St}.
Arguments d_st {txn St}.
Arguments d_audit {txn St}.
Arguments d_index {txn St}.
Arguments WTxn {txn St}.
Arguments WState {txn St}.
Arguments WAudit {txn St}.
Arguments WIndex {txn St}.
Arguments perform {txn St}.
Arguments performs {txn St}.
