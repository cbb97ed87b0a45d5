(** Model of plenum/server/consensus/checkpoint_service.py, of its message validator and of
    the two methods of plenum/server/replica.py which set the watermarks. *)
From Coq Require Import List Arith Bool.
From Verif Require Import Quorum_Model Validator_Model.
Import ListNotations.

(** Digests are natural numbers; [None] is Python's [None] (the digest of the initial
    checkpoint, and of one created for a batch the audit ledger does not know). *)
Definition digest := option nat.
Definition digest_eqb (a b : digest) : bool :=
  match a, b with
  | None, None => true
  | Some x, Some y => x =? y
  | _, _ => false
  end.

(** node_messages.py [Checkpoint] *)
Record checkpoint := Checkpoint {
  cp_inst : nat; cp_view : nat; cp_start : nat; cp_seq : nat; cp_digest : digest }.
Definition cp_eqb (a b : checkpoint) : bool :=
  (cp_inst a =? cp_inst b) && (cp_view a =? cp_view b) && (cp_start a =? cp_start b) &&
  (cp_seq a =? cp_seq b) && digest_eqb (cp_digest a) (cp_digest b).

(** 34-35 [CheckpointKey], 282-288 [_checkpoint_key] *)
Record ckey := CKey { k_view : nat; k_seq : nat; k_digest : digest }.
Definition ckey_eqb (a b : ckey) : bool :=
  (k_view a =? k_view b) && (k_seq a =? k_seq b) && digest_eqb (k_digest a) (k_digest b).
Definition checkpoint_key (c : checkpoint) : ckey := CKey (cp_view c) (cp_seq c) (cp_digest c).

Definition node := nat.

(** What other services write in the shared data (consensus_shared_data.py:20-110) and in the
    audit ledger; each audit transaction is given by its viewNo and ppSeqNo. *)
Record shared := Shared {
  sh_view : nat;
  sh_waiting : bool;              (* waiting_for_new_view *)
  sh_participating : bool;
  sh_primary : bool;              (* is_primary; None counts as False, as in the code *)
  sh_last : nat * nat;            (* last_ordered_3pc *)
  sh_preprepared : list (nat * nat); (* view_no and pp_seq_no of each batch *)
  sh_nodes : nat;                 (* len(validators), from which the quorums are made *)
  sh_audit : list (nat * nat) }.

(** the constants of a replica; [c_root l] is the root hash of an audit ledger made of [l] *)
Record config := Config {
  c_inst : nat; c_master : bool; c_freq : nat; c_log : nat; c_root : list (nat * nat) -> nat }.

Record state := State {
  s_sh : shared;
  s_own : list checkpoint;        (* _data.checkpoints, a SortedListWithKey on seqNoEnd *)
  s_recv : list (ckey * list node); (* _received_checkpoints, a defaultdict(set) *)
  s_stable : nat;
  s_low : nat;
  s_high : option nat }.          (* None: sys.maxsize *)

Inductive output :=
| OSend (c : checkpoint)                 (* to the other nodes *)
| OStabilized (view seq : nat)           (* CheckpointStabilized *)
| ONeedMasterCatchup
| ONeedBackupCatchup (key : nat * nat)
| OUnstashWatermarks                     (* process_all_stashed(STASH_WATERMARKS) *)
| ONewViewCheckpointsApplied (view : nat) (c : checkpoint)
| OCatchupCheckpointsApplied (last_caught_up master_last : nat * nat)
| OLogicError.

Definition with_own (o : list checkpoint) (s : state) : state :=
  State (s_sh s) o (s_recv s) (s_stable s) (s_low s) (s_high s).
Definition with_recv (r : list (ckey * list node)) (s : state) : state :=
  State (s_sh s) (s_own s) r (s_stable s) (s_low s) (s_high s).
Definition with_stable (n : nat) (s : state) : state :=
  State (s_sh s) (s_own s) (s_recv s) n (s_low s) (s_high s).
Definition with_shared (h : shared) (s : state) : state :=
  State h (s_own s) (s_recv s) (s_stable s) (s_low s) (s_high s).
Definition with_last (key : nat * nat) (s : state) : state :=
  let h := s_sh s in
  with_shared (Shared (sh_view h) (sh_waiting h) (sh_participating h) (sh_primary h) key
    (sh_preprepared h) (sh_nodes h) (sh_audit h)) s.

(** a step: the new state and what is sent, in order *)
Definition act := state -> state * list output.
Definition seq2 (a b : act) : act := fun s =>
  let (s1, o1) := a s in let (s2, o2) := b s1 in (s2, o1 ++ o2).
Definition emit (o : output) : act := fun s => (s, [o]).
Definition upd (f : state -> state) : act := fun s => (f s, []).
Definition skip : act := fun s => (s, []).

(** consensus_shared_data.py:143-145 [initial_checkpoint], 42-47, 58-60 *)
Definition initial_checkpoint (cfg : config) : checkpoint := Checkpoint (c_inst cfg) 0 0 0 None.
Definition init (cfg : config) (h : shared) : state :=
  State h [initial_checkpoint cfg] [] 0 0 (Some (c_log cfg)).

(** SortedListWithKey.add: behind the elements with the same or a smaller key *)
Fixpoint sorted_add (c : checkpoint) (l : list checkpoint) : list checkpoint :=
  match l with
  | [] => [c]
  | x :: l' => if cp_seq c <? cp_seq x then c :: l else x :: sorted_add c l'
  end.

(** the entry of a key in the defaultdict *)
Definition votes (k : ckey) (r : list (ckey * list node)) : list node :=
  match find (fun e => ckey_eqb (fst e) k) r with Some e => snd e | None => [] end.
(** reading a key of a defaultdict creates it *)
Definition touch (k : ckey) (r : list (ckey * list node)) : list (ckey * list node) :=
  if existsb (fun e => ckey_eqb (fst e) k) r then r else r ++ [(k, [])].
(** [set.add] *)
Definition set_add (x : node) (l : list node) : list node := if existsb (Nat.eqb x) l then l else l ++ [x].
Definition add_vote (k : ckey) (x : node) (r : list (ckey * list node)) : list (ckey * list node) :=
  map (fun e => if ckey_eqb (fst e) k then (fst e, set_add x (snd e)) else e) (touch k r).

(** 278-280 [_is_below_3pc_key]: compare_3PC_keys (util.py:618-622) compares the numbers of the
    batches only *)
Definition is_below (k : ckey) (key : nat * nat) : bool := k_seq k <=? snd key.

(** 264-266 [_have_own_checkpoint] *)
Definition have_own (k : ckey) (s : state) : bool :=
  existsb (fun c => (cp_seq c =? k_seq k) && (cp_view c =? k_view k) && digest_eqb (cp_digest c) (k_digest k)) (s_own s).

(** 268-270 [_have_quorum_on_received_checkpoint] *)
Definition quorum_votes (k : ckey) (s : state) : bool :=
  is_reached (Quorum_Model.checkpoint (Quorums (sh_nodes (s_sh s)))) (length (votes k (s_recv s))).

(** 272-276 [_unknown_stabilized_checkpoints] (all keys looked up exist already) *)
Definition unknown_stabilized (s : state) : list ckey :=
  filter (fun k => quorum_votes k s && negb (have_own k s) && negb (is_below k (sh_last (s_sh s))))
    (map fst (s_recv s)).

(** 216-225 [set_watermarks]. The replay of the messages stashed for being above the watermark
    is an output: the replayed messages come as later events. *)
Definition set_watermarks (cfg : config) (low : nat) (high : option (option nat)) : act := fun s =>
  (State (s_sh s) (s_own s) (s_recv s) (s_stable s) low
     (match high with None => Some (low + c_log cfg) | Some h => h end), [OUnstashWatermarks]).

(** 227-233 [update_watermark_from_3pc] *)
Definition update_watermark_from_3pc (cfg : config) : act := fun s =>
  let (v, n) := sh_last (s_sh s) in
  if v =? sh_view (s_sh s) then set_watermarks cfg n None s else (s, []).

(** 235-248 [_remove_received_checkpoints] *)
Definition remove_received (till : option (nat * nat)) (s : state) : state :=
  match till with
  | None => with_recv [] s
  | Some key => with_recv (filter (fun e => negb (is_below (fst e) key)) (s_recv s)) s
  end.

(** 290-302 [_audit_txn_by_pp_seq_no]: from the end; if there is no such transaction, the first
    one and number 0 *)
Fixpoint audit_search (l : list (nat * nat)) (n : nat) (pp_seq_no : nat) : option (nat * nat) * nat :=
  match n with
  | 0 => (nth_error l 0, 0)
  | S m =>
      match nth_error l m with
      | Some txn => if snd txn =? pp_seq_no then (Some txn, n) else audit_search l m pp_seq_no
      | None => audit_search l m pp_seq_no
      end
  end.

(** 197-207 [_create_checkpoint_from_audit_ledger], 209-214 *)
Definition checkpoint_from_audit (cfg : config) (pp_seq_no : nat) (h : shared) : checkpoint :=
  let (txn, n) := audit_search (sh_audit h) (length (sh_audit h)) pp_seq_no in
  Checkpoint (c_inst cfg)
    (match txn with None => sh_view h | Some t => fst t end) 0 pp_seq_no
    (if n =? 0 then None else Some (c_root cfg (firstn n (sh_audit h)))).

(** 177-195 [_mark_checkpoint_stable] *)
Definition mark_stable (cfg : config) (n : nat) : act := fun s =>
  let s := with_stable n s in
  let s := if existsb (fun c => cp_seq c =? n) (s_own s) then s
           else with_own (sorted_add (checkpoint_from_audit cfg n (s_sh s)) (s_own s)) s in
  let s := with_own (filter (fun c => negb (cp_seq c <? n)) (s_own s)) s in
  seq2 (set_watermarks cfg n None)
    (seq2 (upd (fun s => remove_received (Some (sh_view (s_sh s), n)) s))
       (fun s => (s, [OStabilized (sh_view (s_sh s)) n]))) s.

(** 168-175 [_try_to_stabilize_checkpoint] *)
Definition try_to_stabilize (cfg : config) (k : ckey) : act := fun s =>
  let s := with_recv (touch k (s_recv s)) s in
  if negb (quorum_votes k s) then (s, [])
  else if negb (have_own k s) then (s, [])
  else mark_stable cfg (k_seq k) s.

(** 137-139 [caught_up_till_3pc] *)
Definition caught_up_till_3pc (cfg : config) (key : nat * nat) : act :=
  mark_stable cfg (snd key / c_freq cfg * c_freq cfg).

(** the last of the keys sorted by view and number, 117: a key with the largest pair *)
Definition key_le (a b : ckey) : bool :=
  (k_view a <? k_view b) || ((k_view a =? k_view b) && (k_seq a <=? k_seq b)).
Fixpoint last_key (d : ckey) (l : list ckey) : ckey :=
  match l with
  | [] => d
  | k :: l' => last_key (if key_le d k then k else d) l'
  end.

(** 107-135 [_start_catchup_if_needed]. On a backup the bus calls [Replica._caught_up_backup]
    (replica.py:585-590), which calls [caught_up_till_3pc] once more and sets last_ordered_3pc
    (ordering_service.py:2224). *)
Definition start_catchup_if_needed (cfg : config) (k : ckey) : act := fun s =>
  if have_own k s then (s, [])
  else match unknown_stabilized s with
  | [] | [_] => (s, [])
  | u :: us =>
      if c_master cfg then
        if sh_primary (s_sh s) then (s, []) else (s, [ONeedMasterCatchup])
      else
        let key := (sh_view (s_sh s), k_seq (last_key u us)) in
        seq2 (emit (ONeedBackupCatchup key))
          (seq2 (upd (with_last key))
            (seq2 (caught_up_till_3pc cfg key) (caught_up_till_3pc cfg key))) s
  end.

(** checkpoint_service_msg_validator.py:14-38 [validate] *)
Definition validate_checkpoint (cfg : config) (s : state) (c : checkpoint) : verdict :=
  if negb (cp_inst c =? c_inst cfg) then DISCARD
  else if cp_seq c <=? s_stable s then DISCARD
  else if cp_view c <? sh_view (s_sh s) then DISCARD
  else if sh_waiting (s_sh s) then STASH_VIEW_3PC
  else if negb (sh_participating (s_sh s)) then STASH_CATCH_UP
  else PROCESS.

(** 77-90 [process_checkpoint] (a stashed message comes again as a later event) *)
Definition process_checkpoint (cfg : config) (c : checkpoint) (sender : node) : act := fun s =>
  match validate_checkpoint cfg s c with
  | PROCESS =>
      let k := checkpoint_key c in
      seq2 (upd (fun s => with_recv (add_vote k sender (s_recv s)) s))
        (seq2 (try_to_stabilize cfg k) (start_catchup_if_needed cfg k)) s
  | _ => (s, [])
  end.

(** 92-95 [process_backup_setup_last_ordered] *)
Definition process_backup_setup (cfg : config) (inst : nat) : act := fun s =>
  if inst =? c_inst cfg then update_watermark_from_3pc cfg s else (s, []).

(** 160-166 [_do_checkpoint] *)
Definition do_checkpoint (cfg : config) (n view : nat) (root : digest) : act := fun s =>
  let c := Checkpoint (c_inst cfg) view 0 n root in
  (with_own (sorted_add c (s_own s)) s, [OSend c]).

(** 147-156 [_add_to_checkpoint] *)
Definition add_to_checkpoint (cfg : config) (n view : nat) (root : digest) : act :=
  if negb (n mod c_freq cfg =? 0) then skip
  else seq2 (do_checkpoint cfg n view root) (try_to_stabilize cfg (CKey view n root)).

(** 97-105 [process_ordered]: the last batch with this number *)
Definition process_ordered (cfg : config) (n : nat) (root : digest) : act := fun s =>
  match find (fun b => snd b =? n) (rev (sh_preprepared (s_sh s))) with
  | Some b => add_to_checkpoint cfg (snd b) (fst b) root s
  | None => (s, [OLogicError])
  end.

(** 250-255 [_reset_checkpoints] *)
Definition reset_checkpoints (cfg : config) (s : state) : state := with_own [initial_checkpoint cfg] s.

(** 141-145 [catchup_clear_for_backup] *)
Definition catchup_clear_for_backup (cfg : config) : act :=
  seq2 (upd (fun s => remove_received None (reset_checkpoints cfg s))) (set_watermarks cfg 0 (Some None)).

(** 304-327 [process_new_view_accepted] *)
Definition process_new_view_accepted (cfg : config) (view : nat) (c : checkpoint) : act := fun s =>
  if c_master cfg then
    if negb (existsb (cp_eqb c) (s_own s)) then (s, [])
    else seq2 (mark_stable cfg (cp_seq c))
           (seq2 (set_watermarks cfg (cp_seq c) None) (emit (ONewViewCheckpointsApplied view c))) s
  else
    seq2 (upd (fun s => let h := s_sh s in
            with_shared (Shared (sh_view h) false (sh_participating h) (sh_primary h) (sh_last h)
              (sh_preprepared h) (sh_nodes h) (sh_audit h)) s))
      (seq2 (set_watermarks cfg 0 None)
        (seq2 (upd (fun s => remove_received None (with_stable 0 (reset_checkpoints cfg s))))
          (emit (ONewViewCheckpointsApplied view c)))) s.

(** 329-339 [process_catchup_finished] *)
Definition process_catchup_finished (cfg : config) (caught master_last : nat * nat) : act := fun s =>
  seq2 (fun s =>
      if snd master_last <? snd caught then
        if c_master cfg then caught_up_till_3pc cfg caught s
        else if negb (sh_primary (s_sh s)) then catchup_clear_for_backup cfg s else (s, [])
      else (s, []))
    (emit (OCatchupCheckpointsApplied caught master_last)) s.

(** replica.py:395-403 [on_propagate_primary_done], called by the node at the end of every
    catch-up (node.py:1830-1852) *)
Definition on_propagate_primary_done (cfg : config) : act := fun s =>
  if c_master cfg then update_watermark_from_3pc cfg s
  else if negb (sh_primary (s_sh s)) then set_watermarks cfg 0 (Some None) s else (s, []).

Inductive event :=
| ECheckpoint (c : checkpoint) (sender : node)
| EOrdered (n : nat) (root : digest)
| ENewViewAccepted (view : nat) (c : checkpoint)
| ECatchupFinished (caught master_last : nat * nat)
| EPropagatePrimaryDone
| EBackupSetup (inst : nat)
| EShared (h : shared).           (* another service wrote to the shared data *)

Definition step (cfg : config) (e : event) : act :=
  match e with
  | ECheckpoint c x => process_checkpoint cfg c x
  | EOrdered n root => process_ordered cfg n root
  | ENewViewAccepted v c => process_new_view_accepted cfg v c
  | ECatchupFinished a b => process_catchup_finished cfg a b
  | EPropagatePrimaryDone => on_propagate_primary_done cfg
  | EBackupSetup i => process_backup_setup cfg i
  | EShared h => upd (with_shared h)
  end.

Fixpoint run (cfg : config) (s : state) (es : list event) : state * list output :=
  match es with
  | [] => (s, [])
  | e :: es' => let (s1, o1) := step cfg e s in let (s2, o2) := run cfg s1 es' in (s2, o1 ++ o2)
  end.
