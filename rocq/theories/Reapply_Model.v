(** Model of how a replica of the master instance that is not the primary applies the batches of a NewView again:
    plenum/server/consensus/ordering_service.py:2375-2457, with 501-644, 818-890, 1076-1118, 1130-1136, 1273-1287, 1885-1926 as far as
    they matter here, and ordering_service_msg_validator.py:101-150.
    Water marks are left out (the batches of a NewView lie between them), and so are requests that are not known and the messages that
    are asked for when a batch is not the next (C93).  The support of a time by Prepares (343-370) is left out as well.  A replica
    takes part and does not wait for a NewView.  [valid] stands for applying a batch and comparing the outcome (892-944).
    [p_rest] is all that the digest does not cover: roots, what was rejected, the multi-signature. *)
From Coq Require Import List Arith Bool.
Import ListNotations.

(** [PrePrepare]; [p_orig] is what [get_original_viewno] gives (consensus/utils.py) *)
Record pp := PP { p_view : nat; p_orig : nat; p_seq : nat; p_time : nat; p_reqs : nat; p_digest : nat; p_rest : nat }.
(** consensus/batch_id.py:12 [BatchID] *)
Record bid := Bid { b_view : nat; b_pview : nat; b_seq : nat; b_digest : nat }.
Notation key := (nat * nat * nat)%type.
Record rep := Rep { view : nat; names : list bid (** [new_view.batches] *); cert : nat (** [prev_view_prepare_cert] *);
  ordered : nat (** [last_ordered_3pc] *); lseq : nat (** [_lastPrePrepareSeqNo] *);
  lat : nat (** [last_accepted_pre_prepare_time], 0 for [None] *);
  old : list (key * pp) (** [old_view_preprepares] *); pps : list (nat * pp) (** [prePrepares] of this view *);
  tss : list (nat * nat * nat) (** [pre_prepare_tss]: number, rest, time *);
  prev : list (nat * pp) (** [prePreparesPendingPrevPP] *); bad_time : list (nat * pp) (** [pre_prepares_stashed_for_incorrect_time] *);
  applied : list pp (** those that were applied, in this order *); blamed : list pp (** for which the primary was suspected *);
  asked : list (list bid) (** the OldViewPrePrepareRequests that were sent to all *);
  kept : list nat (** what the stash STASH_VIEW_3PC holds *); taken : list nat (** what was taken out of it *) }.

Definition key_eqb (a b : key) : bool :=
  (fst (fst a) =? fst (fst b)) && (snd (fst a) =? snd (fst b)) && (snd a =? snd b).
(** [dict.get] *)
Fixpoint get (k : key) (l : list (key * pp)) : option pp :=
  match l with [] => None | (k', p) :: r => if key_eqb k k' then Some p else get k r end.
(** [SortedDict.__setitem__], and [dict]'s *)
Fixpoint put (k : nat) (p : pp) (l : list (nat * pp)) : list (nat * pp) :=
  match l with
  | [] => [(k, p)]
  | (k', p') :: r => if k <? k' then (k, p) :: l else if k =? k' then (k, p) :: r else (k', p') :: put k p r
  end.
Definition has (k : nat) (l : list (nat * pp)) : bool := existsb (fun e => fst e =? k) l.
(** ordering_service.py:2375-2378 [_update_old_view_preprepares]: the key of a batch *)
Definition key_of (p : pp) : key := (p_orig p, p_seq p, p_digest p).
(** consensus/utils.py:18-20 [preprepare_to_batch_id] *)
Definition id_of (p : pp) : bid := Bid (p_view p) (p_orig p) (p_seq p) (p_digest p).
Definition bid_eqb (a b : bid) : bool :=
  (b_view a =? b_view b) && (b_pview a =? b_pview b) && (b_seq a =? b_seq b) && (b_digest a =? b_digest b).
(** ordering_service.py:678-702 [__last_pp_3pc]: the last of this view, or the last ordered *)
Definition last_pp (s : rep) : nat := fold_right Nat.max (ordered s) (map fst (pps s)).

Section Env.
(** ordering_service.py:2313-2315 [generate_pp_digest]: view, time, requests *)
Variable digest_of : nat -> nat -> nat -> nat.
Variable valid : list pp -> pp -> bool.
(** ACCEPTABLE_DEVIATION_PREPREPARE_SECS *)
Variable dev : nat.

(** ordering_service.py:509-514: the time at which it was seen first *)
Definition stamp (s : rep) (now : nat) (p : pp) : list (nat * nat * nat) :=
  if existsb (fun e => (fst (fst e) =? p_seq p) && (snd (fst e) =? p_rest p)) (tss s) then tss s
  else (p_seq p, p_rest p, now) :: tss s.
Definition seen_at (l : list (nat * nat * nat)) (p : pp) : option nat :=
  option_map snd (find (fun e => (fst (fst e) =? p_seq p) && (snd (fst e) =? p_rest p)) l).
(** ordering_service.py:1076-1096 [_is_pre_prepare_time_correct] *)
Definition time_ok (s : rep) (p : pp) : bool :=
  if (0 <? lat s) && (p_time p <? lat s) then false
  else match seen_at (tss s) p with
       | None => false
       | Some t => (p_time p - t) + (t - p_time p) <=? dev
       end.
(** ordering_service.py:1130-1136 [_is_next_pre_prepare] *)
Definition is_next (s : rep) (k : nat) : bool := if k =? 1 then true else k =? S (last_pp s).
(** ordering_service.py:1273-1287 [_add_to_pre_prepares] *)
Definition add (s : rep) (p : pp) (ap : list pp) : rep :=
  Rep (view s) (names s) (cert s) (ordered s) (Nat.max (lseq s) (p_seq p)) (p_time p) (old s) (put (p_seq p) p (pps s))
      (tss s) (prev s) (bad_time s) ap (blamed s) (asked s) (kept s) (taken s).
Definition blame (s : rep) (p : pp) : rep :=
  Rep (view s) (names s) (cert s) (ordered s) (lseq s) (lat s) (old s) (pps s) (tss s) (prev s) (bad_time s) (applied s)
      (blamed s ++ [p]) (asked s) (kept s) (taken s).
(** ordering_service.py:501-644 [process_preprepare] with 818-866 [_can_process_pre_prepare] and 871-890 [_process_valid_preprepare],
    for a batch of the current view that comes as if from the primary *)
Definition process (s : rep) (now : nat) (p : pp) : rep :=
  let s := Rep (view s) (names s) (cert s) (ordered s) (lseq s) (lat s) (old s) (pps s) (stamp s now p) (prev s) (bad_time s)
               (applied s) (blamed s) (asked s) (kept s) (taken s) in
  (* the validator; whoever calls this directly does not look at the verdict, so nothing is stashed *)
  if p_seq p =? 0 then s
  else if (p_seq p <=? ordered s) && (cert s <? p_seq p) then s
  else if (S (cert s) <? p_seq p) && (ordered s <? S (cert s)) then s
  else if p_seq p <=? ordered s then add s p (applied s)
  else if negb (digest_of (p_orig p) (p_time p) (p_reqs p) =? p_digest p) then blame s p
  else if has (p_seq p) (pps s) then s
  else if negb (time_ok s p) then
    blame (Rep (view s) (names s) (cert s) (ordered s) (lseq s) (lat s) (old s) (pps s) (tss s) (prev s)
               (put (p_seq p) p (bad_time s)) (applied s) (blamed s) (asked s) (kept s) (taken s)) p
  else if p_seq p <? last_pp s then s
  else if negb (is_next s (p_seq p)) then
    Rep (view s) (names s) (cert s) (ordered s) (lseq s) (lat s) (old s) (pps s) (tss s) (put (p_seq p) p (prev s))
        (bad_time s) (applied s) (blamed s) (asked s) (kept s) (taken s)
  else if valid (applied s) p then add s p (applied s ++ [p])
  else blame s p.
(** ordering_service.py:2446-2453 [_process_pre_prepare_from_old_view] *)
Definition to_view (v : nat) (p : pp) : pp := PP v (p_orig p) (p_seq p) (p_time p) (p_reqs p) (p_digest p) (p_rest p).
Definition process_old (now : nat) (s : rep) (p : pp) : rep := process s now (to_view (view s) p).
(** ordering_service.py:2455-2457 [_reapplied_in_new_view] *)
Definition reapplied (s : rep) : rep :=
  Rep (view s) (names s) (cert s) (ordered s) (lseq s) (lat s) (old s) (pps s) (tss s) (prev s) (bad_time s) (applied s) (blamed s)
      (asked s) [] (taken s ++ kept s).
Definition held (s : rep) (b : bid) : option pp := get (b_pview b, b_seq b, b_digest b) (old s).
Definition is_missing (s : rep) (b : bid) : bool := match held s b with None => true | Some _ => false end.
Definition try_name (now : nat) (s : rep) (b : bid) : rep :=
  match held s b with None => s | Some p => process_old now s p end.
(** ordering_service.py:2380-2409 [process_new_view_checkpoints_applied] *)
Definition start (s : rep) (now : nat) : rep :=
  let s' := fold_left (try_name now) (names s) s in
  match filter (is_missing s) (names s) with
  | [] => reapplied s'
  | ms => Rep (view s') (names s') (cert s') (ordered s') (lseq s') (lat s') (old s') (pps s') (tss s') (prev s') (bad_time s')
              (applied s') (blamed s') (asked s' ++ [ms]) (kept s') (taken s')
  end.
(** ordering_service.py:2411-2423 [process_old_view_preprepare_request]: the answer *)
Definition answer (s : rep) (ids : list bid) : list pp :=
  flat_map (fun b => match held s b with Some p => [p] | None => [] end) ids.
(** ordering_service.py:2425-2440 [process_old_view_preprepare_reply]; the sender is only for the log *)
Definition take (now : nat) (s : rep) (p : pp) : rep :=
  if existsb (bid_eqb (id_of p)) (names s) then process_old now s p else s.
Definition reply (s : rep) (sender now : nat) (ps : list pp) : rep :=
  let s := fold_left (take now) ps s in
  if (0 <? cert s) && (cert s <=? lseq s) then reapplied s else s.
(** ordering_service.py:1910-1926 [dequeue_pre_prepares] *)
Definition can_dequeue (s : rep) (k : nat) : bool := is_next s k || (k <=? ordered s).
Fixpoint dequeue (fuel now : nat) (s : rep) : rep :=
  match fuel with
  | 0 => s
  | S fuel =>
    match prev s with
    | [] => s
    | (k, p) :: r =>
      if can_dequeue s k
      then dequeue fuel now (process (Rep (view s) (names s) (cert s) (ordered s) (lseq s) (lat s) (old s) (pps s) (tss s) r (bad_time s)
                                          (applied s) (blamed s) (asked s) (kept s) (taken s)) now p)
      else s
    end
  end.
Definition service (s : rep) (now : nat) : rep := dequeue (length (prev s)) now s.
(** a reply comes, the queue is looked at, the next batch is ordered, a message is put in the stash *)
Inductive op := Reply (sender now : nat) (ps : list pp) | Service (now : nat) | Order | Keep (m : nat).
Definition step (s : rep) (o : op) : rep :=
  match o with
  | Reply f now ps => reply s f now ps
  | Service now => service s now
  | Order => if ordered s <? last_pp s
             then Rep (view s) (names s) (cert s) (S (ordered s)) (lseq s) (lat s) (old s) (pps s) (tss s) (prev s) (bad_time s)
                      (applied s) (blamed s) (asked s) (kept s) (taken s) else s
  | Keep m => Rep (view s) (names s) (cert s) (ordered s) (lseq s) (lat s) (old s) (pps s) (tss s) (prev s) (bad_time s)
                  (applied s) (blamed s) (asked s) (kept s ++ [m]) (taken s)
  end.
Definition run (s : rep) (os : list op) : rep := fold_left step os s.
End Env.
