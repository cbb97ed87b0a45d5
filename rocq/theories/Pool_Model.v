(** Model of the pool ledger's NODE transactions and of the registry of nodes kept from them:
    plenum/server/request_handlers/node_handler.py, plenum/server/pool_manager.py
    (TxnPoolManager.onPoolMembershipChange and what it calls), plenum/common/stack_manager.py
    (parseLedgerForHaAndKeys, connectNewRemote, stackHaChanged).
    Names, keys, DIDs and addresses (ip and port together) are numbers. Left out: the wire (connections,
    keys of the stacks), BLS proofs of possession (static_validation, node_handler.py:28-59; requests
    that fail it never come here), VERKEY. *)
From Coq Require Import List Arith Bool.
Import ListNotations.

(** dictionaries with numbers as keys *)
Fixpoint get {V} (k : nat) (d : list (nat * V)) : option V :=
  match d with [] => None | (q, v) :: r => if q =? k then Some v else get k r end.
(** an assignment keeps the place of an old key and appends a new one, like OrderedDict *)
Fixpoint set {V} (k : nat) (v : V) (d : list (nat * V)) : list (nat * V) :=
  match d with [] => [(k, v)] | (q, w) :: r => if q =? k then (q, v) :: r else (q, w) :: set k v r end.
Definition del {V} (k : nat) (d : list (nat * V)) : list (nat * V) := filter (fun x => negb (fst x =? k)) d.

(** client_request.py:26-44 [ClientNodeOperationData]: the alias is required, the addresses (of the node
    and for clients) come all or not at all, services is a list of VALIDATOR's (empty or not); other
    fields are not refused (SCHEMA_IS_STRICT = False, constants.py:282), e.g. `identifier`. A BLS key
    stands for key and proof. *)
Record data := mkData { d_alias : nat; d_ha : option (nat * nat); d_serv : option bool; d_bls : option nat; d_ident : option nat }.
Record txn := mkTxn { x_from : nat; x_nym : nat; x_data : data }.
(** what the pool state holds under a node's nym *)
Record entry := mkE { e_ident : nat; e_alias : nat; e_ha : option (nat * nat); e_serv : option bool; e_bls : option nat }.
Definition pstate := list (nat * entry).

Definition orelse {A} (a b : option A) : option A := match a with Some _ => a | None => b end.
(** node_handler.py:78-91 [update_state] *)
Definition merge (e : entry) (d : data) : entry :=
  mkE (match d_ident d with Some i => i | None => e_ident e end) (d_alias d) (orelse (d_ha d) (e_ha e)) (orelse (d_serv d) (e_serv e)) (orelse (d_bls d) (e_bls e)).
Definition fresh (from : nat) (d : data) : entry := mkE (match d_ident d with Some i => i | None => from end) (d_alias d) (d_ha d) (d_serv d) (d_bls d).
Definition update_state (st : pstate) (x : txn) : pstate :=
  set (x_nym x) (match get (x_nym x) st with Some e => merge e (x_data x) | None => fresh (x_from x) (x_data x) end) st.

Definition onat_eqb (a b : option nat) : bool := match a, b with Some x, Some y => x =? y | None, None => true | _, _ => false end.
Definition obool_eqb (a b : option bool) : bool := match a, b with Some x, Some y => eqb x y | None, None => true | _, _ => false end.
Definition node_ha (h : option (nat * nat)) : option nat := option_map fst h.
Definition client_ha (h : option (nat * nat)) : option nat := option_map snd h.
(** node_handler.py:148-160 [_data_error_while_validating], the part about equal addresses *)
Definition ha_ok (d : data) : bool := match d_ha d with Some (n, c) => negb (n =? c) | None => true end.
(** node_handler.py:162-165 [_is_node_data_same] *)
Definition data_same (e : entry) (d : data) : bool :=
  match d_ident d with Some _ => false | None =>
    (e_alias e =? d_alias d) && onat_eqb (node_ha (e_ha e)) (node_ha (d_ha d)) && onat_eqb (client_ha (e_ha e)) (client_ha (d_ha d)) &&
    obool_eqb (e_serv e) (d_serv d) && onat_eqb (e_bls e) (d_bls d)
  end.
(** node_handler.py:167-195 [_is_node_data_conflicting], on the uncommitted state *)
Definition conflicting (st : pstate) (d : data) (updating : option nat) : bool :=
  (match updating with
   | Some n => match get n st with Some e => negb (e_alias e =? d_alias d) | None => true end
   | None => false
   end) ||
  existsb (fun q => (match updating with Some n => negb (fst q =? n) | None => true end) &&
    ((d_alias d =? e_alias (snd q)) || onat_eqb (node_ha (d_ha d)) (node_ha (e_ha (snd q))) || onat_eqb (client_ha (d_ha d)) (client_ha (e_ha (snd q))))) st.
(** node_handler.py:139-145 [_steward_has_node] *)
Definition steward_has_node (st : pstate) (steward : nat) : bool := existsb (fun q => e_ident (snd q) =? steward) st.
(** node_handler.py:65-76, 93-115, 197-210 [additional_dynamic_validation]; [authorize] does nothing *)
Definition valid (st : pstate) (x : txn) : bool :=
  let d := x_data x in
  match get (x_nym x) st with
  | Some e => ha_ok d && negb (data_same e d) && negb (conflicting st d (Some (x_nym x)))
  | None => (match d_ha d with Some _ => true | None => false end) && ha_ok d && negb (steward_has_node st (x_from x)) && negb (conflicting st d None)
  end.

(** ** The registry of nodes: pool_manager.py *)
Record registry := mkG {
  g_ids : list (nat * nat);            (* _ordered_node_ids: nym -> alias *)
  g_serv : list (nat * bool);          (* _ordered_node_services: nym -> is it a validator *)
  g_reg : list (nat * (nat * nat))     (* nodeReg and cliNodeReg: alias -> addresses *)
}.
(** pool_manager.py:372-383 [_set_node_ids_in_cache]; None is the LogicError *)
Definition set_ids (ids : list (nat * nat)) (nym alias : nat) : option (list (nat * nat)) :=
  match get nym ids with
  | None => Some (set nym alias ids)
  | Some a => if a =? alias then Some ids else None
  end.
(** pool_manager.py:281-325 [nodeServicesChanged] with stack_manager.py:100-126 [connectNewRemote]; [st]
    is the committed pool state at that moment, [self] this node's own alias; None: KeyError *)
Definition services_changed (self : nat) (st : pstate) (reg : list (nat * (nat * nat))) (old : bool) (x : txn) (alias : nat) : option (list (nat * (nat * nat))) :=
  match d_serv (x_data x) with
  | None => Some reg
  | Some new =>
    if eqb old new then Some reg
    else if new then
      match get (x_nym x) st with
      | Some e => match e_ha e with
                  | Some h => Some (set alias (if alias =? self then h else match d_ha (x_data x) with Some h' => h' | None => h end) reg)
                  | None => None
                  end
      | None => None
      end
    else match get alias reg with Some _ => Some (del alias reg) | None => None end
  end.
(** pool_manager.py:160-208 [onPoolMembershipChange], 222-256 [nodeHaChanged], stack_manager.py:128-174
    [stackHaChanged] *)
Definition on_change (self : nat) (st : pstate) (g : registry) (x : txn) : option registry :=
  let d := x_data x in
  match set_ids (g_ids g) (x_nym x) (d_alias d) with
  | None => None
  | Some ids =>
    match get (x_nym x) (g_serv g) with
    | None =>
      match (match d_serv d with
             | Some true => match d_ha d with Some h => Some (set (d_alias d) h (g_reg g)) | None => None end
             | _ => Some (g_reg g)
             end) with
      | None => None
      | Some reg => Some (mkG ids (set (x_nym x) (match d_serv d with Some b => b | None => false end) (g_serv g)) reg)
      end
    | Some old =>
      match services_changed self st (g_reg g) old x (d_alias d) with
      | None => None
      | Some reg =>
        let reg := match get (d_alias d) reg, d_ha d with Some _, Some h => set (d_alias d) h reg | _, _ => reg end in
        Some (mkG ids (match d_serv d with Some b => set (x_nym x) b (g_serv g) | None => g_serv g end) reg)
      end
    end
  end.
Definition on_changes (self : nat) (st : pstate) (g : option registry) (xs : list txn) : option registry :=
  fold_left (fun g x => match g with Some g => on_change self st g x | None => None end) xs g.

(** stack_manager.py:57-98 [_parse_pool_transaction_file] and 24-55 [parseLedgerForHaAndKeys] *)
Definition parse_one (acc : list (nat * (nat * nat)) * list nat) (x : txn) : list (nat * (nat * nat)) * list nat :=
  let d := x_data x in
  (match d_ha d with Some h => set (d_alias d) h (fst acc) | None => fst acc end,
   match d_serv d with
   | Some true => d_alias d :: snd acc
   | Some false => remove Nat.eq_dec (d_alias d) (snd acc)
   | None => snd acc
   end).
Definition parse (ledger : list txn) : list (nat * (nat * nat)) :=
  let '(all, act) := fold_left parse_one ledger ([], []) in filter (fun q => existsb (Nat.eqb (fst q)) act) all.
(** pool_manager.py:355-370 [_load_nodes_order_from_ledger], 385-387 [_set_node_services_in_cache] *)
Definition load_ids (ledger : list txn) : option (list (nat * nat)) :=
  fold_left (fun o x => match o with Some ids => set_ids ids (x_nym x) (d_alias (x_data x)) | None => None end) ledger (Some []).
Definition load_serv (ledger : list txn) : list (nat * bool) :=
  fold_left (fun s x => match d_serv (x_data x) with Some b => set (x_nym x) b s | None => s end) ledger [].
Definition load (ledger : list txn) : option registry :=
  match load_ids ledger with Some ids => Some (mkG ids (load_serv ledger) (parse ledger)) | None => None end.
(** pool_manager.py:396-399 [calc_node_names_ordered_by_rank] *)
Definition names_by_rank (g : registry) : list nat := filter (fun a => match get a (g_reg g) with Some _ => true | None => false end) (map snd (g_ids g)).

(** ** A node: committed ledger and state, applied batches with the state after each, registry *)
Record node := mkN { n_ledger : list txn; n_state : pstate; n_unc : list (list txn * pstate); n_reg : option registry }.
Definition head (n : node) : pstate := match rev (n_unc n) with q :: _ => snd q | [] => n_state n end.
(** ordering_service.py:1138-1166: requests of a batch are validated in turn, invalid ones skipped *)
Fixpoint apply_batch (st : pstate) (rs : list txn) : list txn * pstate :=
  match rs with
  | [] => ([], st)
  | x :: r => if valid st x then let '(ts, st') := apply_batch (update_state st x) r in (x :: ts, st') else apply_batch st r
  end.
(** node.py:1748-1763, 1783-1785: for each transaction of a catch-up first the registry is told, then the
    state is updated *)
Definition caught (self : nat) (n : node) (x : txn) : node :=
  mkN (n_ledger n ++ [x]) (update_state (n_state n) x) [] (match n_reg n with Some g => on_change self (n_state n) g x | None => None end).
Inductive event :=
| EBatch (rs : list txn)      (* a batch is applied *)
| ECommit                     (* the oldest applied one is committed: node.py:519-531 [execute_pool_txns] *)
| EReject                     (* the youngest one is rejected *)
| ECaught (rs : list txn)     (* a catch-up drops applied batches and adds transactions, valid ones as other nodes ordered them *)
| ERestart.                   (* applied batches are lost, the registry is read from the ledger: pool_manager.py:101-124 *)
Definition step (self : nat) (n : node) (e : event) : node :=
  match e with
  | EBatch rs => mkN (n_ledger n) (n_state n) (n_unc n ++ [apply_batch (head n) rs]) (n_reg n)
  | ECommit => match n_unc n with
               | [] => n
               | (ts, st) :: r => mkN (n_ledger n ++ ts) st r (on_changes self st (n_reg n) ts)
               end
  | EReject => mkN (n_ledger n) (n_state n) (removelast (n_unc n)) (n_reg n)
  | ECaught rs => fold_left (caught self) (fst (apply_batch (n_state n) rs)) (mkN (n_ledger n) (n_state n) [] (n_reg n))
  | ERestart => mkN (n_ledger n) (n_state n) [] (load (n_ledger n))
  end.
Definition run (self : nat) (n : node) (es : list event) : node := fold_left (step self) es n.
Definition init (genesis : list txn) : node := mkN genesis (fold_left update_state genesis []) [] (load genesis).
