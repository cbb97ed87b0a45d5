(** Model of the ordering service of the master instance
    (plenum/server/consensus/ordering_service.py) within one view: processing of PrePrepare,
    Prepare and Commit messages, sending of batches by the primary, ordering, and garbage
    collection at stable checkpoints; plus the vote stores of plenum/server/models.py.

    Simplifications.
    - Messages put into a stash (by the validator, for missing requests, for a missing
      previous PrePrepare, or for a wrong time) are offered again later by the code.  Here
      they are dropped: since every theorem speaks about all sequences of incoming messages,
      the later offer is just one more incoming message.  The two queues whose presence the
      code tests, [preparesWaitingForPrePrepare] and [commitsWaitingForPrepare], are modelled.
    - Checks of a PrePrepare that depend on the ledgers, the clock or the client requests
      (digest of the requests, time, all requests known, pool state root, BLS multi signature,
      result of applying the batch) are inputs: the event carries their outcomes.
    - Reports of suspicious nodes, metrics, timers, freshness and request queues are left out:
      they do not change the modelled state.
    - A BLS signature over a value is modelled by the value: a signature of an honest node
      verifies exactly for the value it signed.
    - Digests and root hashes are numbers; only their equality matters. *)
From Coq Require Import List Arith Bool Lia.
From Verif Require Import Quorum_Model Validator_Model NewView_Model.
Import ListNotations.

(** ** Dictionaries with keys (view_no, pp_seq_no) *)
Definition key := (nat * nat)%type.
Definition dict (A : Type) := list (key * A).
Definition key_eqb (a b : key) : bool := (fst a =? fst b) && (snd a =? snd b).

Fixpoint get {A} (k : key) (d : dict A) : option A :=
  match d with
  | [] => None
  | (k', v) :: d' => if key_eqb k k' then Some v else get k d'
  end.
Fixpoint put {A} (k : key) (v : A) (d : dict A) : dict A :=
  match d with
  | [] => [(k, v)]
  | (k', v') :: d' => if key_eqb k k' then (k, v) :: d' else (k', v') :: put k v d'
  end.
Definition del {A} (k : key) (d : dict A) : dict A := filter (fun p => negb (key_eqb k (fst p))) d.
Definition has {A} (k : key) (d : dict A) : bool := match get k d with Some _ => true | None => false end.
Definition key_mem (k : key) (l : list key) : bool := existsb (key_eqb k) l.

(** ** Messages (node_messages.py) *)
Definition node := nat.

(** [PrePrepare]: viewNo, ppSeqNo, ppTime, digest, the original view (utils.py:14-15
    [get_original_viewno]) and the root hashes *)
Record pre_prepare := PrePrepare {
  pp_view : nat; pp_seq : nat; pp_time : nat; pp_dig : nat; pp_orig_view : nat;
  pp_state_root : nat; pp_txn_root : nat; pp_audit_root : nat }.
(** [Prepare] *)
Record prepare_msg := Prepare {
  p_view : nat; p_seq : nat; p_time : nat; p_dig : nat;
  p_state_root : nat; p_txn_root : nat; p_audit_root : nat }.
(** [Commit]: note that it names no digest.  [c_sig] is the value under the optional BLS
    signatures: state root, transaction root, time (bls_multi_signature.py:15-46) *)
Record commit_msg := Commit { c_view : nat; c_seq : nat; c_sig : option (nat * nat * nat) }.

Definition pp_key (pp : pre_prepare) : key := (pp_view pp, pp_seq pp).
Definition p_key (p : prepare_msg) : key := (p_view p, p_seq p).
Definition c_key (c : commit_msg) : key := (c_view c, c_seq c).

(** utils.py:18-20 [preprepare_to_batch_id] *)
Definition preprepare_to_batch_id (pp : pre_prepare) : batch_id :=
  BatchID (pp_view pp) (pp_orig_view pp) (pp_seq pp) (pp_dig pp).

(** bls_bft_replica_plenum.py:187-193, 205-211: what is signed in a Commit for a batch that
    was applied: its roots (equal to those of the audit transaction, as
    [_validate_applied_pre_prepare] checks) and its time *)
Definition signed_value (pp : pre_prepare) : nat * nat * nat := (pp_state_root pp, pp_txn_root pp, pp_time pp).
Definition value_eqb (a b : nat * nat * nat) : bool :=
  (fst (fst a) =? fst (fst b)) && (snd (fst a) =? snd (fst b)) && (snd a =? snd b).

(** What a replica does that others can see.  A Commit is shown together with the batch that
    [_try_commit] marks as prepared when sending it. *)
Inductive output :=
| OPrePrepare (pp : pre_prepare)
| OPrepare (p : prepare_msg)
| OCommit (c : commit_msg) (pp : pre_prepare)
| OOrdered (pp : pre_prepare).

(** Fixed during a view: this replica's name, the primary's name, the quorums, what the node
    signs in a Commit for a batch that was or was not already ordered (None without BLS keys;
    bls_bft_replica_plenum.py:97-130 takes the values from the audit ledger), LOG_SIZE and
    Max3PCBatchesInFlight of the configuration. *)
Record config := Config {
  me : node; primary : node; q : quorums; sign : bool -> pre_prepare -> option (nat * nat * nat);
  log_size : nat; max_in_flight : option nat }.

(** The state of a replica (consensus_shared_data.py:27-100 and ordering_service.py:100-214). *)
Record replica := Replica {
  r_view : nat;
  r_low : nat;
  r_high : nat;
  r_waiting : bool;
  r_participating : bool;
  r_last_ordered : key;
  r_prev_cert : nat;
  r_sent : dict pre_prepare;
  r_pps : dict pre_prepare;
  r_prepares : dict (list node);
  r_commits : dict (list node);
  r_prep_wait : dict (list (prepare_msg * node));
  r_comm_wait : dict (list (commit_msg * node));
  r_stashed : dict commit_msg;
  r_ordered : list key;
  r_last_pp : nat;
  r_preprepared : list batch_id;
  r_prepared : list batch_id }.

(** Assignments to single fields. *)
Definition set_sent (st : replica) x : replica :=
    {| r_view := r_view st; r_low := r_low st; r_high := r_high st; r_waiting := r_waiting st;
    r_participating := r_participating st; r_last_ordered := r_last_ordered st; r_prev_cert :=
    r_prev_cert st; r_sent := x; r_pps := r_pps st; r_prepares := r_prepares st; r_commits := r_commits
    st; r_prep_wait := r_prep_wait st; r_comm_wait := r_comm_wait st; r_stashed := r_stashed st;
    r_ordered := r_ordered st; r_last_pp := r_last_pp st; r_preprepared := r_preprepared st; r_prepared
    := r_prepared st |}.
Definition set_pps (st : replica) x : replica :=
    {| r_view := r_view st; r_low := r_low st; r_high := r_high st; r_waiting := r_waiting st;
    r_participating := r_participating st; r_last_ordered := r_last_ordered st; r_prev_cert :=
    r_prev_cert st; r_sent := r_sent st; r_pps := x; r_prepares := r_prepares st; r_commits := r_commits
    st; r_prep_wait := r_prep_wait st; r_comm_wait := r_comm_wait st; r_stashed := r_stashed st;
    r_ordered := r_ordered st; r_last_pp := r_last_pp st; r_preprepared := r_preprepared st; r_prepared
    := r_prepared st |}.
Definition set_prepares (st : replica) x : replica :=
    {| r_view := r_view st; r_low := r_low st; r_high := r_high st; r_waiting := r_waiting st;
    r_participating := r_participating st; r_last_ordered := r_last_ordered st; r_prev_cert :=
    r_prev_cert st; r_sent := r_sent st; r_pps := r_pps st; r_prepares := x; r_commits := r_commits st;
    r_prep_wait := r_prep_wait st; r_comm_wait := r_comm_wait st; r_stashed := r_stashed st; r_ordered
    := r_ordered st; r_last_pp := r_last_pp st; r_preprepared := r_preprepared st; r_prepared :=
    r_prepared st |}.
Definition set_commits (st : replica) x : replica :=
    {| r_view := r_view st; r_low := r_low st; r_high := r_high st; r_waiting := r_waiting st;
    r_participating := r_participating st; r_last_ordered := r_last_ordered st; r_prev_cert :=
    r_prev_cert st; r_sent := r_sent st; r_pps := r_pps st; r_prepares := r_prepares st; r_commits := x;
    r_prep_wait := r_prep_wait st; r_comm_wait := r_comm_wait st; r_stashed := r_stashed st; r_ordered
    := r_ordered st; r_last_pp := r_last_pp st; r_preprepared := r_preprepared st; r_prepared :=
    r_prepared st |}.
Definition set_prep_wait (st : replica) x : replica :=
    {| r_view := r_view st; r_low := r_low st; r_high := r_high st; r_waiting := r_waiting st;
    r_participating := r_participating st; r_last_ordered := r_last_ordered st; r_prev_cert :=
    r_prev_cert st; r_sent := r_sent st; r_pps := r_pps st; r_prepares := r_prepares st; r_commits :=
    r_commits st; r_prep_wait := x; r_comm_wait := r_comm_wait st; r_stashed := r_stashed st; r_ordered
    := r_ordered st; r_last_pp := r_last_pp st; r_preprepared := r_preprepared st; r_prepared :=
    r_prepared st |}.
Definition set_comm_wait (st : replica) x : replica :=
    {| r_view := r_view st; r_low := r_low st; r_high := r_high st; r_waiting := r_waiting st;
    r_participating := r_participating st; r_last_ordered := r_last_ordered st; r_prev_cert :=
    r_prev_cert st; r_sent := r_sent st; r_pps := r_pps st; r_prepares := r_prepares st; r_commits :=
    r_commits st; r_prep_wait := r_prep_wait st; r_comm_wait := x; r_stashed := r_stashed st; r_ordered
    := r_ordered st; r_last_pp := r_last_pp st; r_preprepared := r_preprepared st; r_prepared :=
    r_prepared st |}.
Definition set_stashed (st : replica) x : replica :=
    {| r_view := r_view st; r_low := r_low st; r_high := r_high st; r_waiting := r_waiting st;
    r_participating := r_participating st; r_last_ordered := r_last_ordered st; r_prev_cert :=
    r_prev_cert st; r_sent := r_sent st; r_pps := r_pps st; r_prepares := r_prepares st; r_commits :=
    r_commits st; r_prep_wait := r_prep_wait st; r_comm_wait := r_comm_wait st; r_stashed := x;
    r_ordered := r_ordered st; r_last_pp := r_last_pp st; r_preprepared := r_preprepared st; r_prepared
    := r_prepared st |}.
Definition set_last_pp (st : replica) x : replica :=
    {| r_view := r_view st; r_low := r_low st; r_high := r_high st; r_waiting := r_waiting st;
    r_participating := r_participating st; r_last_ordered := r_last_ordered st; r_prev_cert :=
    r_prev_cert st; r_sent := r_sent st; r_pps := r_pps st; r_prepares := r_prepares st; r_commits :=
    r_commits st; r_prep_wait := r_prep_wait st; r_comm_wait := r_comm_wait st; r_stashed := r_stashed
    st; r_ordered := r_ordered st; r_last_pp := x; r_preprepared := r_preprepared st; r_prepared :=
    r_prepared st |}.
Definition set_preprepared (st : replica) x : replica :=
    {| r_view := r_view st; r_low := r_low st; r_high := r_high st; r_waiting := r_waiting st;
    r_participating := r_participating st; r_last_ordered := r_last_ordered st; r_prev_cert :=
    r_prev_cert st; r_sent := r_sent st; r_pps := r_pps st; r_prepares := r_prepares st; r_commits :=
    r_commits st; r_prep_wait := r_prep_wait st; r_comm_wait := r_comm_wait st; r_stashed := r_stashed
    st; r_ordered := r_ordered st; r_last_pp := r_last_pp st; r_preprepared := x; r_prepared :=
    r_prepared st |}.
Definition set_prepared (st : replica) x : replica :=
    {| r_view := r_view st; r_low := r_low st; r_high := r_high st; r_waiting := r_waiting st;
    r_participating := r_participating st; r_last_ordered := r_last_ordered st; r_prev_cert :=
    r_prev_cert st; r_sent := r_sent st; r_pps := r_pps st; r_prepares := r_prepares st; r_commits :=
    r_commits st; r_prep_wait := r_prep_wait st; r_comm_wait := r_comm_wait st; r_stashed := r_stashed
    st; r_ordered := r_ordered st; r_last_pp := r_last_pp st; r_preprepared := r_preprepared st;
    r_prepared := x |}.

(** What the validator reads. *)
Definition vdata_of (st : replica) : vdata :=
  {| d_inst := 0; d_is_master := true; d_view := r_view st; d_waiting_for_new_view := r_waiting st;
     d_participating := r_participating st; d_low := r_low st; d_high := r_high st;
     d_last_ordered := r_last_ordered st; d_prev_cert := r_prev_cert st |}.
Definition processed (st : replica) (k : key) : bool :=
  match validate_3pc (vdata_of st) 0 (fst k) (snd k) with PROCESS => true | _ => false end.
Definition already_ordered (st : replica) (k : key) : bool :=
  has_already_ordered (r_last_ordered st) (fst k) (snd k).

(** ** Votes (models.py) *)
Definition voters (k : key) (d : dict (list node)) : list node :=
  match get k d with Some l => l | None => [] end.
Definition voted (x : node) (l : list node) : bool := existsb (Nat.eqb x) l.
(** models.py:24-28 [_add_msg] *)
Definition add_vote (k : key) (x : node) (d : dict (list node)) : dict (list node) :=
  put k (if voted x (voters k d) then voters k d else voters k d ++ [x]) d.
(** models.py:34-36 [_has_vote] *)
Definition has_vote (k : key) (x : node) (d : dict (list node)) : bool := voted x (voters k d).
(** models.py:44-45 [_has_enough_votes] *)
Definition has_quorum (k : key) (n : nat) (d : dict (list node)) : bool := n <=? length (voters k d).

Section Ordering.
  Variable cfg : config.

  (** ordering_service.py:1380-1386 [get_preprepare] *)
  Definition get_preprepare (st : replica) (k : key) : option pre_prepare :=
    match get k (r_sent st) with Some pp => Some pp | None => get k (r_pps st) end.

  (** ordering_service.py:1372-1378 [_has_prepared] *)
  Definition has_prepared (st : replica) (k : key) : bool :=
    match get_preprepare st k with
    | None => false
    | Some _ => has k (r_prepares st) || has k (r_sent st) || has k (r_prep_wait st)
    end.

  (** the entry with the largest key, [SortedDict.peekitem(-1)] *)
  Definition key_ltb (a b : key) : bool := (fst a <? fst b) || ((fst a =? fst b) && (snd a <? snd b)).
  Fixpoint last_item (d : dict pre_prepare) : option key :=
    match d with
    | [] => None
    | (k, _) :: d' => match last_item d' with
                      | None => Some k
                      | Some k' => if key_ltb k' k then Some k else Some k'
                      end
    end.

  (** ordering_service.py:678-690 [last_preprepare], its key *)
  Definition last_preprepare (st : replica) : option key :=
    match last_item (r_sent st), last_item (r_pps st) with
    | Some s, Some p => if lt_3pc s p then Some p else Some s
    | Some s, None => Some s
    | None, Some p => if lt_3pc (0, 0) p then Some p else None
    | None, None => None
    end.

  (** ordering_service.py:692-702 [__last_pp_3pc] *)
  Definition last_pp_3pc (st : replica) : key :=
    match last_preprepare st with
    | None => r_last_ordered st
    | Some k => if lt_3pc (r_last_ordered st) k then k else r_last_ordered st
    end.

  (** ordering_service.py:1255-1271 [lastPrePrepareSeqNo] setter *)
  Definition raise_last_pp (st : replica) (n : nat) : replica :=
    set_last_pp st (if r_last_pp st <? n then n else r_last_pp st).

  (** ordering_service.py:2462-2468 [_preprepare_batch] *)
  Definition preprepare_batch (st : replica) (pp : pre_prepare) : replica :=
    let b := preprepare_to_batch_id pp in
    if existsb (bid_eqb b) (r_preprepared st) then st else set_preprepared st (r_preprepared st ++ [b]).
  (** ordering_service.py:2470-2477 [_prepare_batch] *)
  Definition prepare_batch (st : replica) (pp : pre_prepare) : replica :=
    let b := preprepare_to_batch_id pp in
    if existsb (bid_eqb b) (r_prepared st) then st else set_prepared st (r_prepared st ++ [b]).

  (** ** Ordering *)

  (** ordering_service.py:1700-1728 [_all_prev_ordered] *)
  Definition all_prev_ordered (st : replica) (k : key) : bool :=
    if snd (r_last_ordered st) =? snd k - 1 then true
    else
      let toCheck := map fst (r_sent st) ++ map fst (r_pps st)
                     ++ map fst (r_prepares st) ++ map fst (r_commits st) in
      forallb (fun vp =>
        if (fst vp <? fst k) && negb (key_mem vp (r_ordered st)) then false
        else if (fst vp =? fst k) && (snd vp <? snd k) && negb (key_mem vp (r_ordered st)) then false
        else true) toCheck.

  (** ordering_service.py:1482-1552 [_order_3pc_key], 1548-1550 [_add_to_ordered], 671-676
      [last_ordered_3pc] setter.  Without a PrePrepare the code raises before any change. *)
  Definition order_3pc_key (st : replica) (k : key) : replica * list output :=
    match get_preprepare st k with
    | None => (st, [])
    | Some pp =>
        ({| r_view := r_view st; r_low := r_low st; r_high := r_high st; r_waiting := r_waiting st;
            r_participating := r_participating st;
            r_last_ordered := k;
            r_prev_cert := r_prev_cert st; r_sent := r_sent st; r_pps := r_pps st;
            r_prepares := r_prepares st; r_commits := r_commits st; r_prep_wait := r_prep_wait st;
            r_comm_wait := r_comm_wait st; r_stashed := r_stashed st;
            r_ordered := k :: r_ordered st;
            r_last_pp := if r_last_pp st <? snd k then snd k else r_last_pp st;
            r_preprepared := r_preprepared st; r_prepared := r_prepared st |},
         [OOrdered pp])
    end.

  (** ordering_service.py:1608-1640 [_can_order]: the answer and the possibly changed state *)
  Definition can_order (st : replica) (c : commit_msg) : replica * bool :=
    let k := c_key c in
    if negb (has_quorum k (commit (q cfg)) (r_commits st)) then (st, false)
    else if already_ordered st k then (st, false)
    else if (1 <? snd k) && negb (all_prev_ordered st k)
         then (set_stashed st (put k c (r_stashed st)), false)
    else (st, true).

  (** ordering_service.py:1454-1468 [_try_order], 1476-1480 [_do_order]; the answer is the
      one of [_can_order] *)
  Definition try_order (st : replica) (c : commit_msg) : replica * list output * bool :=
    let (st1, ok) := can_order st c in
    if ok then let (st2, o) := order_3pc_key st1 (c_key c) in (st2, o, true)
    else (st1, [], false).

  (** ordering_service.py:1693-1698 [_is_lowest_commit_in_view] *)
  Definition is_lowest_commit_in_view (st : replica) (c : commit_msg) : bool :=
    if r_view st <? c_view c then false else c_seq c =? 1.

  (** ordering_service.py:1654-1680: the loop over the stashed commits, with the keys to
      remove.  The code keeps one dictionary per view; going through one dictionary with both
      parts of the key visits the commits of each view in the same order. *)
  Fixpoint stashed_loop (todo : dict commit_msg) (st : replica) (last : key) (rem : list key) (out : list output)
    : replica * list key * list output :=
    match todo with
    | [] => (st, rem, out)
    | ((v, p), c) :: todo' =>
        if v <? fst last then stashed_loop todo' st last ((v, p) :: rem) out
        else if key_mem (v, p) (r_ordered st) || already_ordered st (c_key c)
        then stashed_loop todo' st last ((v, p) :: rem) out
        else if ((v =? fst last) && (p =? S (snd last))) || ((fst last <? v) && is_lowest_commit_in_view st c)
        then match try_order st c with
             | (st', o, true) => stashed_loop todo' st' (v, p) ((v, p) :: rem) (out ++ o)
             | (st', o, false) => stashed_loop todo' st' last rem (out ++ o)
             end
        else stashed_loop todo' st last rem out
    end.

  (** ordering_service.py:1642-1691 [_process_stashed_out_of_order_commits];
      [can_order_commits] (1878-1883) is participation: the legacy flag it also reads is set
      nowhere in the ordering code *)
  Definition process_stashed_out_of_order_commits (st : replica) : replica * list output :=
    if negb (r_participating st) then (st, [])
    else match stashed_loop (r_stashed st) st (r_last_ordered st) [] [] with
         | (st', rem, out) =>
             (set_stashed st' (filter (fun p => negb (key_mem (fst p) rem)) (r_stashed st')), out)
         end.

  (** ** Commits *)

  (** ordering_service.py:1440-1452 [_add_to_commits] *)
  Definition add_to_commits (st : replica) (c : commit_msg) (sender : node) : replica * list output :=
    let st1 := set_commits st (add_vote (c_key c) sender (r_commits st)) in
    match try_order st1 c with (st2, o, _) => (st2, o) end.

  (** ordering_service.py:491-497 [_enqueue_commit] *)
  Definition enqueue_commit (st : replica) (c : commit_msg) (sender : node) : replica :=
    let l := match get (c_key c) (r_comm_wait st) with Some l => l | None => [] end in
    set_comm_wait st (put (c_key c) (l ++ [(c, sender)]) (r_comm_wait st)).

  (** bls_bft_replica_plenum.py:54-74 [validate_commit], called for batches not yet ordered *)
  Definition bls_commit_ok (st : replica) (c : commit_msg) : bool :=
    if already_ordered st (c_key c) then true
    else match c_sig c, get_preprepare st (c_key c) with
         | Some v, Some pp => value_eqb v (signed_value pp)
         | _, _ => true
         end.

  (** ordering_service.py:436-489 [process_commit], [_validate_commit] *)
  Definition process_commit (st : replica) (c : commit_msg) (sender : node) : replica * list output :=
    if negb (processed st (c_key c)) then (st, [])
    else if negb (has_prepared st (c_key c)) then (enqueue_commit st c sender, [])
    else if has_vote (c_key c) sender (r_commits st) then (st, [])
    else if negb (bls_commit_ok st c) then (st, [])
    else add_to_commits st c sender.

  Fixpoint process_commits (l : list (commit_msg * node)) (st : replica) : replica * list output :=
    match l with
    | [] => (st, [])
    | (c, x) :: l' =>
        let (st1, o1) := process_commit st c x in
        let (st2, o2) := process_commits l' st1 in (st2, o1 ++ o2)
    end.

  (** ordering_service.py:1310-1329 [_dequeue_commits].  The code empties the queue while it
      processes the commits; none of them is queued again, because the check at the start
      holds throughout, so the queue can be dropped first. *)
  Definition dequeue_commits (st : replica) (k : key) : replica * list output :=
    match get k (r_comm_wait st) with
    | None => (st, [])
    | Some l =>
        if negb (has_prepared st k) then (st, [])
        else process_commits l (set_comm_wait st (del k (r_comm_wait st)))
    end.

  (** ** Prepares *)

  (** ordering_service.py:1417-1438 [_do_commit], 1402-1412 [_try_commit], 1730-1753
      [_can_commit], [_has_committed] *)
  Definition try_commit (st : replica) (p : prepare_msg) : replica * list output :=
    let k := p_key p in
    if negb (has_quorum k (prepare (q cfg)) (r_prepares st)) then (st, [])
    else if has_vote k (me cfg) (r_commits st) then (st, [])
    else match get_preprepare st k with
         | None => (st, [])
         | Some pp =>
             let st1 := prepare_batch st pp in
             let c := Commit (p_view p) (p_seq p) (sign cfg (already_ordered st k) pp) in
             let (st2, o) := add_to_commits st1 c (me cfg) in
             (st2, OCommit c pp :: o)
         end.

  (** ordering_service.py:1388-1400 [_add_to_prepares] *)
  Definition add_to_prepares (st : replica) (p : prepare_msg) (sender : node) : replica * list output :=
    let st1 := set_prepares st (add_vote (p_key p) sender (r_prepares st)) in
    let (st2, o2) := dequeue_commits st1 (p_key p) in
    let (st3, o3) := try_commit st2 p in
    (st3, o2 ++ o3).

  (** ordering_service.py:330-342 [_enqueue_prepare] *)
  Definition enqueue_prepare (st : replica) (p : prepare_msg) (sender : node) : replica :=
    let l := match get (p_key p) (r_prep_wait st) with Some l => l | None => [] end in
    set_prep_wait st (put (p_key p) (l ++ [(p, sender)]) (r_prep_wait st)).

  (** ordering_service.py:306-321: the Prepare agrees with the PrePrepare *)
  Definition prepare_matches (p : prepare_msg) (pp : pre_prepare) : bool :=
    if negb (p_dig p =? pp_dig pp) then false
    else if negb (p_state_root p =? pp_state_root pp) then false
    else if negb (p_txn_root p =? pp_txn_root pp) then false
    else if negb (p_audit_root p =? pp_audit_root pp) then false
    else true.

  (** ordering_service.py:223-327 [process_prepare], [_validate_prepare] *)
  Definition process_prepare (st : replica) (p : prepare_msg) (sender : node) : replica * list output :=
    if negb (processed st (p_key p)) then (st, [])
    else if sender =? primary cfg then (st, [])
    else if has_vote (p_key p) sender (r_prepares st) then (st, [])
    else match get_preprepare st (p_key p) with
         | None =>
             if me cfg =? primary cfg then
               if p_seq p <=? r_prev_cert st then (enqueue_prepare st p sender, []) else (st, [])
             else (enqueue_prepare st p sender, [])
         | Some pp =>
             if prepare_matches p pp then add_to_prepares st p sender else (st, [])
         end.

  Fixpoint process_prepares (l : list (prepare_msg * node)) (st : replica) : replica * list output :=
    match l with
    | [] => (st, [])
    | (p, x) :: l' =>
        let (st1, o1) := process_prepare st p x in
        let (st2, o2) := process_prepares l' st1 in (st2, o1 ++ o2)
    end.

  (** ordering_service.py:1294-1308 [_dequeue_prepares]: the queue is emptied while the
      prepares are processed (its key stays meanwhile), then its key is removed *)
  Definition dequeue_prepares (st : replica) (k : key) : replica * list output :=
    match get k (r_prep_wait st) with
    | None => (st, [])
    | Some l =>
        let (st1, o) := process_prepares l (set_prep_wait st (put k [] (r_prep_wait st))) in
        (set_prep_wait st1 (del k (r_prep_wait st1)), o)
    end.

  (** ordering_service.py:1355-1366: the Prepare for a PrePrepare *)
  Definition prepare_of (pp : pre_prepare) : prepare_msg :=
    {| p_view := pp_view pp; p_seq := pp_seq pp; p_time := pp_time pp; p_dig := pp_dig pp;
       p_state_root := pp_state_root pp; p_txn_root := pp_txn_root pp;
       p_audit_root := pp_audit_root pp |}.

  (** ordering_service.py:1331-1370 [try_prepare], [_can_prepare], [_do_prepare] *)
  Definition try_prepare (st : replica) (pp : pre_prepare) : replica * list output :=
    if has_vote (pp_key pp) (me cfg) (r_prepares st) then (st, [])
    else
      let p := prepare_of pp in
      let (st1, o) := add_to_prepares st p (me cfg) in
      (st1, OPrepare p :: o).

  (** ** PrePrepares *)

  (** Outcomes of the checks that are inputs here. *)
  Record checks := Checks {
    ck_digest : bool; ck_time : bool; ck_requests : bool; ck_pool_root : bool; ck_bls : bool; ck_apply : bool }.

  (** ordering_service.py:1130-1136 [_is_next_pre_prepare] *)
  Definition is_next_pre_prepare (st : replica) (k : key) : bool :=
    if snd k =? 1 then true else snd k =? S (snd (last_pp_3pc st)).

  (** ordering_service.py:818-866 [_can_process_pre_prepare] *)
  Definition can_process_pre_prepare (st : replica) (pp : pre_prepare) (sender : node) (ck : checks) : bool :=
    if already_ordered st (pp_key pp) then true
    else if negb (ck_digest ck) then false
    else if negb (sender =? primary cfg) then false
    else if has (pp_key pp) (r_pps st) then false
    else if negb (ck_time ck) then false
    else if lt_3pc (pp_key pp) (last_pp_3pc st) then false
    else if negb (ck_requests ck) then false
    else if negb (is_next_pre_prepare st (pp_key pp)) then false
    else if negb (ck_pool_root ck) then false
    else ck_bls ck.

  (** ordering_service.py:1289-1292 [_add_to_sent_pre_prepares] *)
  Definition add_to_sent_pre_prepares (st : replica) (pp : pre_prepare) : replica :=
    raise_last_pp (preprepare_batch (set_sent st (put (pp_key pp) pp (r_sent st))) pp) (pp_seq pp).

  (** ordering_service.py:1273-1287 [_add_to_pre_prepares] *)
  Definition add_to_pre_prepares (st : replica) (pp : pre_prepare) : replica * list output :=
    try_prepare (raise_last_pp (preprepare_batch (set_pps st (put (pp_key pp) pp (r_pps st))) pp) (pp_seq pp)) pp.

  (** ordering_service.py:871-890 [_process_valid_preprepare] *)
  Definition process_valid_preprepare (st : replica) (pp : pre_prepare) (ck : checks) : replica * list output :=
    if negb (already_ordered st (pp_key pp)) && negb (ck_apply ck) then (st, [])
    else
      let (st1, o1) := if me cfg =? primary cfg then (add_to_sent_pre_prepares st pp, [])
                       else add_to_pre_prepares st pp in
      let (st2, o2) := dequeue_prepares st1 (pp_key pp) in
      let (st3, o3) := dequeue_commits st2 (pp_key pp) in
      (st3, o1 ++ o2 ++ o3).

  (** ordering_service.py:501-644 [process_preprepare] *)
  Definition process_preprepare (st : replica) (pp : pre_prepare) (sender : node) (ck : checks)
    : replica * list output :=
    if negb (processed st (pp_key pp)) then (st, [])
    else if can_process_pre_prepare st pp sender ck then process_valid_preprepare st pp ck
    else (st, []).

  (** ordering_service.py:2447: the PrePrepare of a batch, issued again in a later view *)
  Definition reissue (view : nat) (pp : pre_prepare) : pre_prepare :=
    {| pp_view := view; pp_seq := pp_seq pp; pp_time := pp_time pp; pp_dig := pp_dig pp;
       pp_orig_view := pp_orig_view pp; pp_state_root := pp_state_root pp;
       pp_txn_root := pp_txn_root pp; pp_audit_root := pp_audit_root pp |}.

  (** ordering_service.py:2446-2453 [_process_pre_prepare_from_old_view]: a batch of the
      NewView message is processed as if the primary had sent it in this view *)
  Definition process_pre_prepare_from_old_view (st : replica) (pp : pre_prepare) (ck : checks)
    : replica * list output :=
    process_preprepare st (reissue (r_view st) pp) (primary cfg) ck.

  (** ** Sending of batches *)

  (** ordering_service.py:1831-1864 [can_send_3pc_batch] (master instance) *)
  Definition can_send_3pc_batch (st : replica) : bool :=
    if negb (me cfg =? primary cfg) then false
    else if negb (r_participating st) then false
    else if r_waiting st then false
    else if r_last_pp st <? r_prev_cert st then false
    else if (0 <? r_view st) && (r_prev_cert st <? r_last_pp st)
            && (snd (r_last_ordered st) <? S (r_prev_cert st)) then false
    else if r_view st <? fst (r_last_ordered st) then false
    else if r_view st =? fst (r_last_ordered st) then
      if r_last_pp st <? snd (r_last_ordered st) then false
      else match max_in_flight cfg with
           | None => true
           | Some m => negb (m <=? r_last_pp st - snd (r_last_ordered st))
           end
    else true.

  (** ordering_service.py:2038-2108 [create_3pc_batch], 2167-2172 [send_pre_prepare]; time,
      digest and roots of the batch come from the clock, the requests and the ledgers *)
  Definition send_3pc_batch (st : replica) (tm digest state_root txn_root audit_root : nat)
    : replica * list output :=
    if can_send_3pc_batch st then
      let pp := {| pp_view := r_view st; pp_seq := S (r_last_pp st); pp_time := tm; pp_dig := digest;
                   pp_orig_view := r_view st; pp_state_root := state_root; pp_txn_root := txn_root;
                   pp_audit_root := audit_root |} in
      (add_to_sent_pre_prepares st pp, [OPrePrepare pp])
    else (st, []).

  (** ** Stable checkpoints *)

  (** ordering_service.py:733-792 [gc], 2479-2487 [_clear_batch] and checkpoint_service.py:177-195,
      216-225 [_mark_checkpoint_stable], [set_watermarks].  A checkpoint becomes stable only if
      this replica made it itself, that is after ordering the batch, and never below an earlier
      stable one, whose own checkpoints are gone (C24). *)
  Definition checkpoint_stabilized (st : replica) (stable : nat) : replica :=
    if (snd (r_last_ordered st) <? stable) || (stable <? r_low st) then st
    else
      let tpcKeys := filter (fun k => snd k <=? stable) (map fst (r_sent st) ++ map fst (r_pps st)) in
      let gone := fun k : key => key_mem k tpcKeys in
      let cleared := fun b => existsb (fun p => gone (fst p) && bid_eqb b (preprepare_to_batch_id (snd p)))
                                      (r_sent st ++ r_pps st) in
      {| r_view := r_view st; r_low := stable; r_high := stable + log_size cfg; r_waiting := r_waiting st;
         r_participating := r_participating st; r_last_ordered := r_last_ordered st;
         r_prev_cert := r_prev_cert st;
         r_sent := filter (fun p => negb (gone (fst p))) (r_sent st);
         r_pps := filter (fun p => negb (gone (fst p))) (r_pps st);
         r_prepares := filter (fun p => negb (gone (fst p))) (r_prepares st);
         r_commits := filter (fun p => negb (gone (fst p))) (r_commits st);
         r_prep_wait := r_prep_wait st; r_comm_wait := r_comm_wait st; r_stashed := r_stashed st;
         r_ordered := r_ordered st; r_last_pp := r_last_pp st;
         r_preprepared := filter (fun b => negb (cleared b)) (r_preprepared st);
         r_prepared := filter (fun b => negb (cleared b)) (r_prepared st) |}.

  (** ** Runs *)
  Inductive event :=
  | EPrePrepare (pp : pre_prepare) (sender : node) (ck : checks)
  | EOldPrePrepare (pp : pre_prepare) (ck : checks)
  | EPrepare (p : prepare_msg) (sender : node)
  | ECommit (c : commit_msg) (sender : node)
  | ESend (tm digest state_root txn_root audit_root : nat)
  | ETick
  | EStable (stable : nat).

  Definition step (st : replica) (e : event) : replica * list output :=
    match e with
    | EPrePrepare pp x ck => process_preprepare st pp x ck
    | EOldPrePrepare pp ck => process_pre_prepare_from_old_view st pp ck
    | EPrepare p x => process_prepare st p x
    | ECommit c x => process_commit st c x
    | ESend tm d s t a => send_3pc_batch st tm d s t a
    | ETick => process_stashed_out_of_order_commits st
    | EStable s => (checkpoint_stabilized st s, [])
    end.

  Fixpoint run (st : replica) (evs : list event) : replica * list output :=
    match evs with
    | [] => (st, [])
    | e :: evs' =>
        let (st1, o1) := step st e in
        let (st2, o2) := run st1 evs' in (st2, o1 ++ o2)
    end.
End Ordering.
