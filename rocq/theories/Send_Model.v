(** Model of when a primary sends batches, and of what: plenum/server/consensus/ordering_service.py
    (send_3pc_batch and what it calls, can_send_3pc_batch, revert_unordered_batches,
    _caught_up_till_3pc, parts of _order_3pc_key), plenum/server/replica_freshness_checker.py,
    plenum/server/consensus/monitoring/freshness_monitor_service.py, plenum/server/replica.py
    (readyFor3PC, register_ledger).

    One replica that is primary, in one view.  Requests are numbers (their digests).  Whether a
    request is valid is an oracle on the requests applied before it.  Roots, digests and signatures
    of PrePrepares are left out.  Ledgers have a queue of requests since the start (register_ledger). *)
From Coq Require Import List Arith Bool.
From Verif Require Import Base Dict.
Import ListNotations.

(** common/constants.py: DOMAIN_LEDGER_ID *)
Definition DOMAIN := 1.

(** config.py *)
Record config := Config {
  max_size : nat;             (* Max3PCBatchSize *)
  max_wait : nat;             (* Max3PCBatchWait *)
  in_flight : option nat;     (* Max3PCBatchesInFlight *)
  interval : nat;             (* STATE_FRESHNESS_UPDATE_INTERVAL *)
  update : bool;              (* UPDATE_STATE_FRESHNESS *)
  acceptable : nat }.         (* ACCEPTABLE_FRESHNESS_INTERVALS_COUNT *)

(** A PrePrepare *)
Record pp := PP { p_view : nat; p_seq : nat; p_time : nat; p_lid : nat; p_reqs : list nat; p_invalid : list nat }.

(** replica_freshness_checker.py:4-7 [FreshnessState]: (last_updated, last_marked_as_outdated) *)
Definition freshness : Type := dict (nat * nat).

Record rep := Rep {
  r_master : bool; r_primary : bool; r_participating : bool; r_reordered : bool; r_waiting : bool;
  r_view : nat; r_cert : nat;          (* prev_view_prepare_cert *)
  r_last_pp : nat;                     (* _lastPrePrepareSeqNo *)
  r_last_ordered : nat * nat;
  r_queues : dict (list nat);          (* requestQueues *)
  r_fresh : freshness;
  r_created : nat;                     (* lastBatchCreated *)
  r_needed : bool;                     (* primaries_batch_needed *)
  r_time : option nat;                 (* last_accepted_pre_prepare_time *)
  r_stored : option nat;               (* last key of the store of times *)
  r_known : list nat;                  (* requests that are finalised *)
  r_applied : list nat;                (* requests applied *)
  r_sent : list pp;                    (* sent_preprepares, newest first; old ones stay longer than they would *)
  r_batches : list pp }.               (* batches, newest first *)

Inductive verdict := Valid | Invalid | Malicious.

(** orderedset: no element twice; [Dict.add] adds at the end *)
Definition os_discard (x : nat) (l : list nat) : list nat := filter (fun y => negb (y =? x)) l.

(** util.py compare_3PC_keys: key [b] is later than [a] *)
Definition later (a b : nat * nat) : bool := (fst a <? fst b) || ((fst a =? fst b) && (snd a <? snd b)).
Definition key (p : pp) : nat * nat := (p_view p, p_seq p).
Definition same (p p' : pp) : bool := (p_view p =? p_view p') && (p_seq p =? p_seq p').

(** ** Freshness *)
(** replica_freshness_checker.py:16-17 [register_ledger] *)
Definition register (l t : nat) (f : freshness) : freshness := set l (t, t) f.
(** 19-21 [remove_ledgers] *)
Definition remove_ledgers (ls : list nat) (f : freshness) : freshness := fold_left (fun f l => del l f) ls f.
(** 52-62 [update_freshness] *)
Definition update_freshness (l t : nat) (f : freshness) : freshness :=
  match get l f with Some (_, m) => set l (t, m) f | None => f end.

(** 35-41 [check_freshness]: what is outdated *)
Definition outdated (T ts : nat) (x : nat * nat) : bool := negb (ts - fst x <=? T) && negb (ts - snd x <=? T).
(** 43-50: sorted by time since the last update, longest first, then by ledger *)
Definition before (ts : nat) (a b : nat * (nat * nat)) : bool :=
  let x := ts - fst (snd a) in let y := ts - fst (snd b) in (y <? x) || ((x =? y) && (fst a <? fst b)).
Fixpoint insert (ts : nat) (a : nat * (nat * nat)) (l : list (nat * (nat * nat))) : list (nat * (nat * nat)) :=
  match l with [] => [a] | b :: l' => if before ts a b then a :: l else b :: insert ts a l' end.
Definition sort (ts : nat) (l : list (nat * (nat * nat))) : list (nat * (nat * nat)) := fold_right (insert ts) [] l.
(** 23-50 [check_freshness] *)
Definition check_freshness (T ts : nat) (f : freshness) : freshness * list nat :=
  (map (fun '(l, (u, m)) => (l, (u, if outdated T ts (u, m) then ts else m))) f,
   map fst (sort ts (filter (fun x => outdated T ts (snd x)) f))).

(** freshness_monitor_service.py:45-65: whether the replica votes for a view change; None: [min] of
    nothing raises ValueError *)
Definition oldest (f : freshness) : option nat :=
  match map (fun x => fst (snd x)) f with [] => None | t :: ts => Some (fold_left Nat.min ts t) end.
Definition check_votes (c : config) (synced waiting : bool) (now : nat) (f : freshness) : option bool :=
  if negb synced && negb waiting then Some false
  else match oldest f with
       | None => None
       | Some t => Some (negb (now <? t + acceptable c * interval c))
       end.

Section Send.
  Variable c : config.
  (** [verdict_of applied time request]: _do_dynamic_validation after the requests applied *)
  Variable verdict_of : list nat -> nat -> nat -> verdict.

  (** ordering_service.py:1831-1864 [can_send_3pc_batch] *)
  Definition can_send (s : rep) : bool :=
    if negb (r_primary s) then false
    else if negb (r_participating s) then false
    else if negb (r_master s) && negb (r_reordered s) then false
    else if r_waiting s then false
    else if r_last_pp s <? r_cert s then false
    else if (0 <? r_view s) && (r_cert s <? r_last_pp s) && (snd (r_last_ordered s) <? S (r_cert s)) then false
    else if r_view s <? fst (r_last_ordered s) then false
    else if r_view s =? fst (r_last_ordered s) then
      if r_last_pp s <? snd (r_last_ordered s) then false
      else match in_flight c with
           | None => true
           | Some m => negb (m <=? r_last_pp s - snd (r_last_ordered s))
           end
    else true.

  (** 2130-2165 [_consume_req_queue_for_pre_prepare] with 1818-1827 [_process_req_during_batch]: what
      is left of the queue, the requests, the indices of invalid ones, the requests applied *)
  Fixpoint consume (master : bool) (known : list nat) (tm : nat) (q reqs inv ap : list nat)
    : list nat * list nat * list nat * list nat :=
    match q with
    | [] => ([], reqs, inv, ap)
    | k :: q' =>
        if length reqs <? max_size c then
          if existsb (Nat.eqb k) known then
            match (if master then verdict_of ap tm k else Valid) with
            | Valid => consume master known tm q' (reqs ++ [k]) inv (if master then ap ++ [k] else ap)
            | Invalid => consume master known tm q' (reqs ++ [k]) (inv ++ [length reqs]) ap
            | Malicious => consume master known tm q' reqs inv ap
            end
          else consume master known tm q' reqs inv ap
        else (q, reqs, inv, ap)
    end.

  Definition queue (s : rep) (l : nat) : list nat := match get l (r_queues s) with Some q => q | None => [] end.

  (** 2045-2049 and 2123-2128 [_get_utc_epoch_for_preprepare], 2110-2119 [_get_last_timestamp_from_state] *)
  Definition known_time (l : nat) (s : rep) : option nat :=
    match r_time s with
    | Some t => Some t
    | None => if l =? DOMAIN then match r_stored s with Some (S t) => Some (S t) | _ => None end else None
    end.
  Definition batch_time (l ts : nat) (s : rep) : nat :=
    match known_time l s with Some t => if ts <? t then t else ts | None => ts end.

  (** 2025-2034 [_do_send_3pc_batch], 2038-2108 [create_3pc_batch], 1294-1297 [_add_to_sent_pre_prepares] *)
  Definition send_batch (l ts : nat) (s : rep) : rep * pp :=
    let tm := batch_time l ts s in
    let '(q, reqs, inv, ap) := consume (r_master s) (r_known s) tm (queue s l) [] [] (r_applied s) in
    let p := PP (r_view s) (S (r_last_pp s)) tm l reqs inv in
    (Rep (r_master s) (r_primary s) (r_participating s) (r_reordered s) (r_waiting s) (r_view s) (r_cert s)
       (S (r_last_pp s)) (r_last_ordered s) (set l q (r_queues s)) (r_fresh s) (r_created s) (r_needed s)
       (Some tm) (r_stored s) (r_known s) ap (p :: filter (fun p' => negb (same p p')) (r_sent s)) (p :: r_batches s), p).

  (** 2012-2024 [_send_3pc_batches_for_ledgers] *)
  Definition due (now l : nat) (s : rep) : bool :=
    match queue s l with
    | [] => false
    | q => (max_size c <=? length q) || (r_created s + max_wait c <? now)
    end.
  Fixpoint requests_loop (now ts : nat) (ls : list nat) (s : rep) (o : list pp) : rep * list pp :=
    match ls with
    | [] => (s, o)
    | l :: ls' =>
        if due now l s then let '(s', p) := send_batch l ts s in requests_loop now ts ls' s' (o ++ [p])
        else requests_loop now ts ls' s o
    end.

  (** 1991-2010 [_send_3pc_freshness_batch] *)
  Fixpoint fresh_loop (ts : nat) (ls : list nat) (s : rep) (o : list pp) : rep * list pp :=
    match ls with
    | [] => (s, o)
    | l :: ls' =>
        if existsb (Nat.eqb l) (map p_lid o) then fresh_loop ts ls' s o
        else let '(s', p) := send_batch l ts s in fresh_loop ts ls' s' (o ++ [p])
    end.

  Definition with_fresh (f : freshness) (s : rep) : rep :=
    Rep (r_master s) (r_primary s) (r_participating s) (r_reordered s) (r_waiting s) (r_view s) (r_cert s)
      (r_last_pp s) (r_last_ordered s) (r_queues s) f (r_created s) (r_needed s) (r_time s) (r_stored s)
      (r_known s) (r_applied s) (r_sent s) (r_batches s).
  Definition with_needed (b : bool) (s : rep) : rep :=
    Rep (r_master s) (r_primary s) (r_participating s) (r_reordered s) (r_waiting s) (r_view s) (r_cert s)
      (r_last_pp s) (r_last_ordered s) (r_queues s) (r_fresh s) (r_created s) b (r_time s) (r_stored s)
      (r_known s) (r_applied s) (r_sent s) (r_batches s).
  Definition with_created (t : nat) (s : rep) : rep :=
    Rep (r_master s) (r_primary s) (r_participating s) (r_reordered s) (r_waiting s) (r_view s) (r_cert s)
      (r_last_pp s) (r_last_ordered s) (r_queues s) (r_fresh s) t (r_needed s) (r_time s) (r_stored s)
      (r_known s) (r_applied s) (r_sent s) (r_batches s).
  Definition with_queues (q : dict (list nat)) (s : rep) : rep :=
    Rep (r_master s) (r_primary s) (r_participating s) (r_reordered s) (r_waiting s) (r_view s) (r_cert s)
      (r_last_pp s) (r_last_ordered s) q (r_fresh s) (r_created s) (r_needed s) (r_time s) (r_stored s)
      (r_known s) (r_applied s) (r_sent s) (r_batches s).
  Definition with_known (k : list nat) (s : rep) : rep :=
    Rep (r_master s) (r_primary s) (r_participating s) (r_reordered s) (r_waiting s) (r_view s) (r_cert s)
      (r_last_pp s) (r_last_ordered s) (r_queues s) (r_fresh s) (r_created s) (r_needed s) (r_time s) (r_stored s)
      k (r_applied s) (r_sent s) (r_batches s).
  (** 671-675 [last_ordered_3pc] *)
  Definition with_ordered (k : nat * nat) (s : rep) : rep :=
    Rep (r_master s) (r_primary s) (r_participating s) (r_reordered s) (r_waiting s) (r_view s) (r_cert s)
      (Nat.max (r_last_pp s) (snd k)) k (r_queues s) (r_fresh s) (r_created s) (r_needed s) (r_time s) (r_stored s)
      (r_known s) (r_applied s) (r_sent s) (r_batches s).

  (** 1961-1982 [send_3pc_batch]; [now] is get_current_time, [ts] get_time_for_3pc_batch *)
  Definition send_3pc_batch (now ts : nat) (s : rep) : rep * list pp :=
    if negb (can_send s) then (s, [])
    else
      let '(s1, o1) := requests_loop now ts (map fst (r_queues s)) s [] in
      let '(s2, o2) :=
        if update c && r_master s1 then
          let '(f, ls) := check_freshness (interval c) ts (r_fresh s1) in fresh_loop ts ls (with_fresh f s1) o1
        else (s1, o1) in
      let '(s3, o3) :=
        match o2 with
        | [] => if r_needed s2 then let '(s', p) := send_batch DOMAIN ts (with_needed false s2) in (s', [p]) else (s2, [])
        | _ => (s2, o2)
        end in
      (match o3 with [] => s3 | _ => with_created now s3 end, o3).

  (** 1599-1606 [_discard_ordered_req_keys] *)
  Definition discard_reqs (p : pp) (s : rep) : rep :=
    with_queues (set (p_lid p) (fold_left (fun q r => os_discard r q) (p_reqs p) (queue s (p_lid p))) (r_queues s)) s.

  Definition get_sent (k : nat * nat) (s : rep) : option pp :=
    find (fun p => (p_view p =? fst k) && (p_seq p =? snd k)) (r_sent s).

  (** 1482-1544 [_order_3pc_key], of the next batch; [frozen] are the frozen ledgers *)
  Definition order (frozen : list nat) (s : rep) : rep :=
    let k := (r_view s, S (snd (r_last_ordered s))) in
    match get_sent k s with
    | None => s
    | Some p =>
        let s1 := with_fresh (remove_ledgers frozen (update_freshness (p_lid p) (p_time p) (r_fresh s))) s in
        discard_reqs p (with_ordered k s1)
    end.

  (** 2186-2210 [revert_unordered_batches]: one batch; its requests go back to the queue *)
  Definition revert_one (s : rep) (p : pp) : rep :=
    let s1 := match get_sent (key p) s with
              | Some p' => with_queues (set (p_lid p) (fold_left (fun q r => add r q) (p_reqs p') (queue s (p_lid p))) (r_queues s)) s
              | None => s
              end in
    Rep (r_master s) (r_primary s) (r_participating s) (r_reordered s) (r_waiting s) (r_view s) (r_cert s)
      (r_last_pp s - 1) (r_last_ordered s) (r_queues s1) (r_fresh s) (r_created s) (r_needed s) (r_time s) (r_stored s)
      (r_known s) (filter (fun r => negb (existsb (Nat.eqb r) (p_reqs p))) (r_applied s)) (r_sent s) (tl (r_batches s)).
  Fixpoint revert_loop (bs : list pp) (s : rep) : rep :=
    match bs with
    | [] => s
    | p :: bs' => if later (r_last_ordered s) (key p) then revert_loop bs' (revert_one s p) else s
    end.
  (** with node.py:2600-2608: a catch-up starts, the node does not take part; [t] is the time of the
      last audit transaction *)
  Definition revert (t : option nat) (s : rep) : rep :=
    let s1 := revert_loop (r_batches s) s in
    Rep (r_master s) (r_primary s) false (r_reordered s) (r_waiting s) (r_view s) (r_cert s)
      (r_last_pp s1) (r_last_ordered s1) (r_queues s1) (r_fresh s1) (r_created s1) (r_needed s1) t (r_stored s1)
      (r_known s1) (r_applied s1) (r_sent s1) (r_batches s1).

  (** 2223-2225 [_caught_up_till_3pc], 2269-2291 [_remove_till_caught_up_3pc], if the catch-up brought
      something (2361-2365); the node takes part again *)
  Definition caught_up (k : nat * nat) (s : rep) : rep :=
    let s1 := if later (r_last_ordered s) k then
        let s0 := with_ordered k s in
        let s2 := fold_left (fun s p => discard_reqs p s) (filter (fun p => negb (later k (key p))) (r_sent s)) s0 in
        Rep (r_master s2) (r_primary s2) (r_participating s2) (r_reordered s2) (r_waiting s2) (r_view s2) (r_cert s2)
          (r_last_pp s2) (r_last_ordered s2) (r_queues s2) (r_fresh s2) (r_created s2) (r_needed s2) (r_time s2) (r_stored s2)
          (r_known s2) (r_applied s2) (filter (fun p => later k (key p)) (r_sent s2)) (filter (fun p => later k (key p)) (r_batches s2))
      else s in
    Rep (r_master s1) (r_primary s1) true (r_reordered s1) (r_waiting s1) (r_view s1) (r_cert s1)
      (r_last_pp s1) (r_last_ordered s1) (r_queues s1) (r_fresh s1) (r_created s1) (r_needed s1) (r_time s1) (r_stored s1)
      (r_known s1) (r_applied s1) (r_sent s1) (r_batches s1).

  (** ** What happens to the replica *)
  Inductive event :=
  | ESend (now ts : nat)              (* the timer calls send_3pc_batch *)
  | EReady (l r : nat)                (* replica.py:499-513 [readyFor3PC] *)
  | EKnow (r : nat) | EFree (r : nat) (* a request is finalised; it is freed *)
  | EOrder (frozen : list nat)        (* the next batch is ordered *)
  | ERevert (t : option nat)          (* a catch-up starts *)
  | ECaught (k : nat * nat)           (* it is complete *)
  | ENeed.                            (* set_primaries_batch_needed *)

  Definition step (s : rep) (e : event) : rep * list pp :=
    match e with
    | ESend now ts => send_3pc_batch now ts s
    | EReady l r =>
        (if existsb (Nat.eqb r) (r_known s) then with_queues (set l (add r (queue s l)) (r_queues s)) s else s, [])
    | EKnow r => (with_known (r :: r_known s) s, [])
    | EFree r => (with_known (filter (fun x => negb (x =? r)) (r_known s)) s, [])
    | EOrder frozen => (order frozen s, [])
    | ERevert t => (revert t s, [])
    | ECaught k => (caught_up k s, [])
    | ENeed => (with_needed true s, [])
    end.
  Fixpoint run (s : rep) (es : list event) : rep * list pp :=
    match es with
    | [] => (s, [])
    | e :: es' => let '(s1, o1) := step s e in let '(s2, o2) := run s1 es' in (s2, o1 ++ o2)
    end.
End Send.
