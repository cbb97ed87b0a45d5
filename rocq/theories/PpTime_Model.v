(** Model of the times of PrePrepares in plenum/server/consensus/ordering_service.py: which time a
    primary gives to a batch, and which times are accepted. What has nothing to do with times
    (digests, roots, requests, BLS, watermarks) is given with each event as [flags]. *)
From Coq Require Import List Arith Bool.
Import ListNotations.

Definition key := (nat * nat)%type.   (* view, sequence number *)
Definition keqb (a b : key) : bool := (fst a =? fst b) && (snd a =? snd b).
Definition kget {V} (k : key) (d : list (key * V)) : option V :=
  match find (fun x => keqb (fst x) k) d with Some x => Some (snd x) | None => None end.
Definition kdel {V} (k : key) (d : list (key * V)) : list (key * V) := filter (fun x => negb (keqb (fst x) k)) d.
Definition kset {V} (k : key) (v : V) (d : list (key * V)) : list (key * V) := (k, v) :: kdel k d.
Definition kin (k : key) (l : list key) : bool := existsb (fun x => keqb x k) l.

(** The fields of a PrePrepare that are read here; [p_root] stands for auditTxnRootHash. *)
Record pp := mkPP { p_key : key; p_time : nat; p_root : nat; p_ledger : nat }.
Definition DOMAIN_LEDGER_ID : nat := 1.

(** What the rest of the replica says about a PrePrepare while it is processed: the clock; whether
    the message validator lets it pass; whether its number is ordered already; whether the checks
    before the time check pass (digest, sender); whether those after it pass and it can be applied. *)
Record flags := mkF { fl_now : nat; fl_valid : bool; fl_ordered : bool; fl_pre : bool; fl_post : bool }.

Record st := mkSt {
  s_last : option nat;                             (* line 115 last_accepted_pre_prepare_time *)
  s_tss : list ((key * (nat * nat)) * nat);        (* line 124 pre_prepare_tss *)
  s_stashed : list (key * (pp * nat * bool));      (* line 108 pre_prepares_stashed_for_incorrect_time *)
  s_waiting : list (key * list (nat * nat));       (* line 147 preparesWaitingForPrePrepare: time, sender *)
  s_requested : list key;                          (* line 663 requested_pre_prepares *)
  s_have : list key;                               (* prePrepares and sent_preprepares *)
  s_batches : list (nat * nat);                    (* line 1251 batches not yet ordered, oldest first: time, ledger *)
  s_audit : list nat;                              (* times of the committed audit transactions, oldest first *)
  s_domain : list nat;                             (* keys of the timestamp store of the domain ledger *)
  s_primary : bool                                 (* is this node the primary *)
}.
Definition with_last s x := mkSt x (s_tss s) (s_stashed s) (s_waiting s) (s_requested s) (s_have s) (s_batches s) (s_audit s) (s_domain s) (s_primary s).

(** why a PrePrepare was accepted *)
Inductive reason := Regular | AlreadyOrdered | Requested | Vouched.
(** [OReordered]: accepted by the primary itself, when batches of the old view are ordered again *)
Inductive out := OCreated (t : nat) | OAccepted (p : pp) (r : reason) | OReordered (p : pp) (r : reason) | OWrongTime (p : pp).

Section Times.
  (** quorums.f and config.ACCEPTABLE_DEVIATION_PREPREPARE_SECS *)
  Variables f dev : nat.

  (** lines 2110-2119 [_get_last_timestamp_from_state]; the keys are compared as strings, which is
      the order of numbers as long as they have equally many digits *)
  Definition last_from_state (s : st) (lid : nat) : option nat :=
    if lid =? DOMAIN_LEDGER_ID then match s_domain s with [] => None | l => Some (list_max l) end else None.
  (** lines 2123-2128 [_get_utc_epoch_for_preprepare] *)
  Definition epoch_for_preprepare (last : option nat) (now : nat) : nat :=
    match last with None => now | Some l => if negb (l =? 0) && (now <? l) then l else now end.
  (** lines 2038-2108 [create_3pc_batch], 2025-2033 *)
  Definition create_batch (s : st) (lid now : nat) (k : key) : st * list out :=
    let last := match s_last s with
                | None => match last_from_state s lid with Some l => if l =? 0 then None else Some l | None => None end
                | x => x
                end in
    let tm := epoch_for_preprepare last now in
    (mkSt (Some tm) (s_tss s) (s_stashed s) (s_waiting s) (s_requested s) (k :: s_have s) (s_batches s ++ [(tm, lid)]) (s_audit s) (s_domain s) (s_primary s),
     [OCreated tm]).

  Definition tget (k : key) (rs : nat * nat) (d : list ((key * (nat * nat)) * nat)) : option nat :=
    match find (fun x => keqb (fst (fst x)) k && keqb (snd (fst x)) rs) d with Some x => Some (snd x) | None => None end.
  (** abs(a - b) <= dev *)
  Definition within (a b : nat) : bool := (a <=? b + dev) && (b <=? a + dev).
  (** lines 1076-1096 [_is_pre_prepare_time_correct] *)
  Definition time_correct (s : st) (p : pp) (sender : nat) : bool :=
    if match s_last s with Some l => negb (l =? 0) && (p_time p <? l) | None => false end then false
    else match tget (p_key p) (p_root p, sender) (s_tss s) with
         | None => false
         | Some t => within (p_time p) t
         end.
  (** lines 1098-1117 [_is_pre_prepare_time_acceptable]; None: not acceptable *)
  Definition time_acceptable (s : st) (p : pp) (sender : nat) : option reason :=
    if kin (p_key p) (s_requested s) then Some Requested
    else if time_correct s p sender then Some Regular
    else match kget (p_key p) (s_stashed s) with
         | Some (_, _, true) => Some Vouched
         | _ => None
         end.

  (** lines 871-890 [_process_valid_preprepare] after the batch is applied, 1273-1287
      [_add_to_pre_prepares], 1289-1292 [_add_to_sent_pre_prepares], 1294-1307 [_dequeue_prepares].
      A batch that is ordered already is not applied (line 874), so not tracked (line 942). *)
  Definition accept (s : st) (p : pp) (r : reason) : st * list out :=
    let last := if s_primary s then s_last s else Some (p_time p) in
    let bs := match r with AlreadyOrdered => s_batches s | _ => s_batches s ++ [(p_time p, p_ledger p)] end in
    (mkSt last (s_tss s) (s_stashed s) (kdel (p_key p) (s_waiting s)) (s_requested s) (p_key p :: s_have s) bs (s_audit s) (s_domain s) (s_primary s),
     [if s_primary s then OReordered p r else OAccepted p r]).

  (** lines 500-640 [process_preprepare], 814-862 [_can_process_pre_prepare] *)
  Definition process_preprepare (s : st) (p : pp) (sender : nat) (fl : flags) : st * list out :=
    let s := match tget (p_key p) (p_root p, sender) (s_tss s) with
             | Some _ => s
             | None => mkSt (s_last s) (((p_key p, (p_root p, sender)), fl_now fl) :: s_tss s) (s_stashed s) (s_waiting s) (s_requested s) (s_have s) (s_batches s) (s_audit s) (s_domain s) (s_primary s)
             end in
    if negb (fl_valid fl) then (s, [])
    else if fl_ordered fl then accept s p AlreadyOrdered
    else if negb (fl_pre fl) then (s, [])
    else if kin (p_key p) (s_have s) then (s, [])
    else match time_acceptable s p sender with
         | None => (mkSt (s_last s) (s_tss s) (kset (p_key p) (p, sender, false) (s_stashed s)) (s_waiting s) (s_requested s) (s_have s) (s_batches s) (s_audit s) (s_domain s) (s_primary s),
                    [OWrongTime p])
         | Some r => if negb (fl_post fl) then (s, []) else accept s p r
         end.

  (** util.py:90-120 [mostCommonElement]: the number of occurrences of the most frequent element *)
  Definition most_frequent (l : list nat) : nat := list_max (map (fun x => count_occ Nat.eq_dec l x) l).
  (** lines 328-369 [_enqueue_prepare], [_process_stashed_pre_prepare_for_time_if_possible]; the
      stashed message is processed within the call *)
  Definition enqueue_prepare (s : st) (k : key) (t sender : nat) (fl : flags) : st * list out :=
    let ws := (match kget k (s_waiting s) with Some l => l | None => [] end) ++ [(t, sender)] in
    let s := mkSt (s_last s) (s_tss s) (s_stashed s) (kset k ws (s_waiting s)) (s_requested s) (s_have s) (s_batches s) (s_audit s) (s_domain s) (s_primary s) in
    match kget k (s_stashed s) with
    | None => (s, [])
    | Some (p, from, done) =>
      if (f <? length ws) && (S f <=? most_frequent (map fst ws)) && negb done then
        process_preprepare (mkSt (s_last s) (s_tss s) (kset k (p, from, true) (s_stashed s)) (s_waiting s) (s_requested s) (s_have s) (s_batches s) (s_audit s) (s_domain s) (s_primary s)) p from fl
      else (s, [])
    end.

  (** lines 2186-2209 [revert_unordered_batches] *)
  Definition revert (s : st) : st :=
    mkSt (match rev (s_audit s) with [] => None | t :: _ => Some t end) (s_tss s) (s_stashed s) (s_waiting s) (s_requested s) (s_have s) [] (s_audit s) (s_domain s) (s_primary s).

  Inductive event :=
  | ECreate (lid now : nat) (k : key)                   (* this node, the primary, creates a batch *)
  | EPrePrepare (p : pp) (sender : nat) (fl : flags)    (* a PrePrepare is processed, for the first time or again *)
  | EPrepare (k : key) (t sender : nat) (fl : flags)    (* a Prepare for a PrePrepare that is not there *)
  | ERequest (ks : list key)                            (* the keys of the requested PrePrepares are now these *)
  | EOrdered                                            (* the oldest batch is ordered and committed *)
  | ERevert                                             (* a catch-up starts, node.py:2600-2608 *)
  | ECaught (ts : list nat)                             (* a catch-up ends; the times of the audit transactions it added *)
  | EViewChange (primary : bool)                        (* lines 2330-2350, and the primary of the new view *)
  | EGc (ks : list key).                                (* lines 730-790 *)

  Definition step (s : st) (e : event) : st * list out :=
    match e with
    | ECreate lid now k => if s_primary s then create_batch s lid now k else (s, [])
    | EPrePrepare p sender fl => process_preprepare s p sender fl
    | EPrepare k t sender fl => enqueue_prepare s k t sender fl
    | ERequest ks => (mkSt (s_last s) (s_tss s) (s_stashed s) (s_waiting s) ks (s_have s) (s_batches s) (s_audit s) (s_domain s) (s_primary s), [])
    | EOrdered =>
      match s_batches s with
      | [] => (s, [])
      | (t, lid) :: r => (mkSt (s_last s) (s_tss s) (s_stashed s) (s_waiting s) (s_requested s) (s_have s) r (s_audit s ++ [t])
                            (if lid =? DOMAIN_LEDGER_ID then s_domain s ++ [t] else s_domain s) (s_primary s), [])
      end
    | ERevert => (revert s, [])
    | ECaught ts => (mkSt (s_last s) (s_tss s) (s_stashed s) (s_waiting s) (s_requested s) (s_have s) (s_batches s) (s_audit s ++ ts) (s_domain s) (s_primary s), [])
    | EViewChange b =>
      let s := revert s in
      (mkSt (s_last s) [] (s_stashed s) (s_waiting s) (s_requested s) [] (s_batches s) (s_audit s) (s_domain s) b, [])
    | EGc ks =>
      let out_of {V} (k : V -> key) (l : list V) := filter (fun x => negb (kin (k x) ks)) l in
      (mkSt (s_last s) (out_of (fun x => fst (fst x)) (s_tss s)) (out_of fst (s_stashed s)) (s_waiting s) (s_requested s) (out_of (fun k => k) (s_have s)) (s_batches s) (s_audit s) (s_domain s) (s_primary s), [])
    end.
  Fixpoint run (s : st) (es : list event) : st * list out :=
    match es with
    | [] => (s, [])
    | e :: es' => let '(s1, o1) := step s e in let '(s2, o2) := run s1 es' in (s2, o1 ++ o2)
    end.
  (** a replica just created, on a node that has the given audit transactions and timestamps *)
  Definition init (audit domain : list nat) : st := mkSt None [] [] [] [] [] [] audit domain false.
End Times.
