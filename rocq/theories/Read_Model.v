(** Model of reading the state of a ledger with a proof, now and at a time in the past:
    plenum/server/request_handlers/handler_interfaces/read_request_handler.py,
    get_txn_author_agreement_handler.py, get_txn_author_agreement_aml_handler.py,
    storage/state_ts_store.py, plenum/server/batch_handlers/ts_store_batch_handler.py,
    plenum/bls/bls_store.py.

    The state is that of Trie_Model.v, driven by the operations of Trie_Spec.v.  [msig]: a
    multi-signature, [m_root]: the state root it is for.  Roots are bytes: their base58 form, in
    which replies and the store of multi-signatures have them, is left out.  The nodes of a proof
    come in the order in which they are met; the code puts them through a set. *)
From Coq Require Import List Arith NArith Bool.
From Verif Require Import Base Rlp_Model Trie_Model Trie_Spec.
Import ListNotations.
Local Open Scope res_scope.

(** ** The store of roots by time (one ledger) *)
Definition ts_store := list (nat * bytes).   (* all puts, the newest first *)

(** storage/state_ts_store.py:28-33 [set] *)
Definition ts_set (t : nat) (root : bytes) (s : ts_store) : ts_store := (t, root) :: s.

(** storage/kv_store_rocksdb_int_keys.py:28-41 [get_equal_or_prev]: the value of the largest key
    that is not above [t]. *)
Fixpoint ts_entry (t : nat) (s : ts_store) : option (nat * bytes) :=
  match s with
  | [] => None
  | (k, r) :: s' =>
      if t <? k then ts_entry t s'
      else match ts_entry t s' with
           | Some (k', r') => if k <? k' then Some (k', r') else Some (k, r)
           | None => Some (k, r)
           end
  end.
Definition get_equal_or_prev (t : nat) (s : ts_store) : option bytes := option_map snd (ts_entry t s).

Section Read.
  Variable H : bytes -> bytes.
  Variable limit : nat.
  Variable msig : Type.
  Variable m_root : msig -> bytes.

  (** ** The stores of a node, as far as one ledger is concerned *)
  Record node := Node { n_run : run_state * list (res unit); n_ts : ts_store; n_bls : list msig (* newest first *) }.
  Definition n_trie (n : node) : trie := r_trie (fst (n_run n)).

  (** plenum/bls/bls_store.py:22-37 [put], [get]: kept under the state root *)
  Definition bls_get (root : bytes) (s : list msig) : option msig := find (fun m => bytes_eqb (m_root m) root) s.

  (** What happens to them.
      [EOp]: a change, a revert or a restart of the state.
      [EBatch i t]: a batch with time [t] is committed, whose state root is the one after operation
      [i] (batch_handlers/domain_batch_handler.py, batch_request_handler.py:49-61: the state is
      committed; then, as the last batch handler, ts_store_batch_handler.py:12-25).
      [ECaught t]: a transaction of a catch-up was applied to the state (node.py:1747-1760: the
      head is committed, and its root goes to the store of roots unless the transaction has no time).
      [ELost i]: like [EBatch], but the process dies before the last batch handler, and starts again.
      [ESig]: a multi-signature goes to its store. *)
  Inductive event :=
  | EOp (o : op) | EBatch (i t : nat) | ECaught (t : option nat) | ELost (i t : nat) | ESig (m : msig).

  Definition do_op (o : op) (n : node) : node := Node (step H limit (n_run n) o) (n_ts n) (n_bls n).
  Definition put_ts (t : nat) (root : bytes) (n : node) : node := Node (n_run n) (ts_set t root (n_ts n)) (n_bls n).

  Definition handle (n : node) (e : event) : node :=
    match e with
    | EOp o => do_op o n
    | EBatch i t => put_ts t (root_at (fst (n_run n)) i) (do_op (OCommit (Some i)) n)
    | ECaught t =>
        let i := length (r_roots (fst (n_run n))) - 1 in   (* the root now *)
        let n' := do_op (OCommit (Some i)) n in
        match t with Some t => put_ts t (root_at (fst (n_run n)) i) n' | None => n' end
    | ELost i t => do_op ORestart (do_op (OCommit (Some i)) n)
    | ESig m => Node (n_run n) (n_ts n) (m :: n_bls n)
    end.
  Definition start : node := Node (run_init H, []) [] [].
  Definition after (es : list event) : node := fold_left handle es start.

  (** ** Reading *)
  Record proof := Proof { p_root : bytes; p_sig : msig; p_nodes : bytes }.
  Definition answer : Type := option item * option proof.

  (** read_request_handler.py:25-63 [_get_value_from_state]. state.get_head_by_hash, then
      pruning_state.py:106-112 [generate_state_proof] with [serialize] and [get_value]. *)
  Definition get_value_from_state (n : node) (path : bytes) (head_hash : option bytes) (with_proof : bool) : res answer :=
    root <- match head_hash with Some (b :: h) => Ok (b :: h) | _ => committed_hash (n_trie n) end ;;
    if negb with_proof then
      v <- s_get_for_root_hash H limit (n_trie n) root path ;; Ok (v, None)
    else
      let r :=
        match bls_get root (n_bls n) with
        | None => v <- s_get_for_root_hash H limit (n_trie n) root path ;; Ok (v, None)
        | Some m =>
            head <- hash_to_node H (n_trie n) root ;;
            '(nodes, v) <- generate_state_proof limit (n_trie n) head path ;;
            ser <- serialize_proof nodes ;;
            v' <- decode_value v ;;
            Ok (v', Some (Proof root m ser))
        end in
      match r with Err KeyError => Ok (None, None) | _ => r end.

  (** get_txn_author_agreement_aml_handler.py:31-45 [get_result], as it reads the state at a time;
      the same in get_txn_author_agreement_handler.py:46-52 *)
  Definition get_value_at (n : node) (path : bytes) (t : nat) : res answer :=
    match get_equal_or_prev t (n_ts n) with
    | None => Ok (None, None)
    | Some h => get_value_from_state n path (Some h) true
    end.

  (** The agreement: a request asks for one version, digest, time, or the latest.  The paths are
      static_taa_helper.py:14-27; the reply's data are left encoded. *)
  Inductive taa_query := QVersion (v : bytes) | QDigest (d : bytes) | QTime (t : nat) | QLatest.
  Variable path_version path_digest : bytes -> bytes.
  Variable path_latest : bytes.

  (** get_txn_author_agreement_handler.py:58-67 [_return_txn_author_agreement] *)
  Definition return_taa (n : node) (pr : option proof) (head_hash : option bytes) (digest data : option item) : res answer :=
    data <- match digest with
            | Some (Str d) =>
                h <- match head_hash with Some (b :: h) => Ok (b :: h) | _ => committed_hash (n_trie n) end ;;
                s_get_for_root_hash H limit (n_trie n) h (path_digest d)
            | Some (Lst _) => Err AttributeError
            | None => Ok data
            end ;;
    Ok (data, pr).

  (** get_txn_author_agreement_handler.py:31-56 [get_result] *)
  Definition get_taa (n : node) (q : taa_query) : res answer :=
    match q with
    | QVersion v =>
        '(digest, pr) <- get_value_from_state n (path_version v) None true ;; return_taa n pr None digest None
    | QDigest d =>
        '(data, pr) <- get_value_from_state n (path_digest d) None true ;; return_taa n pr None None data
    | QTime t =>
        match get_equal_or_prev t (n_ts n) with
        | None => return_taa n None None None None
        | Some h =>
            '(digest, pr) <- get_value_from_state n path_latest (Some h) true ;; return_taa n pr (Some h) digest None
        end
    | QLatest =>
        '(digest, pr) <- get_value_from_state n path_latest None true ;; return_taa n pr None digest None
    end.

  (** What a client does with a proof: state/pruning_state.py:137-149 [verify_state_proof] with
      [serialized], against the root in the reply *)
  Definition client_check (p : proof) (path : bytes) (value : option bytes) : res bool :=
    i <- deserialize_proof (p_nodes p) ;;
    match i with Lst nodes => verify_state_proof H limit (p_root p) path value nodes | Str _ => Err TypeError end.
End Read.
Arguments Node {msig}. Arguments n_run {msig}. Arguments n_ts {msig}. Arguments n_bls {msig}. Arguments n_trie {msig}.
Arguments EOp {msig}. Arguments EBatch {msig}. Arguments ECaught {msig}. Arguments ELost {msig}. Arguments ESig {msig}.
Arguments Proof {msig}. Arguments p_root {msig}. Arguments p_sig {msig}. Arguments p_nodes {msig}.
Arguments bls_get {msig}. Arguments do_op H limit {msig}. Arguments put_ts {msig}.
Arguments handle H limit {msig}. Arguments start H {msig}. Arguments after H limit {msig}.
Arguments get_value_from_state H limit {msig}. Arguments get_value_at H limit {msig}.
Arguments return_taa H limit {msig}. Arguments get_taa H limit {msig}. Arguments client_check H limit {msig}.
