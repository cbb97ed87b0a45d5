(** Model of the Pre-Prepares that come too early, on a replica of the master instance that is not the primary, within a view:
    plenum/server/consensus/ordering_service.py:501-644 (587-622), 818-866, 871-890, 946-968, 1885-1926.
    Checks of digest, sender and time are passed; [valid] stands for applying a batch and comparing the outcome (892-944), and it may
    depend on what was applied before.  The check that a request that is missing was not ordered earlier (589-605) is left out, and so are
    water marks.  Nothing is re-ordered in the view, and ordering a batch is an event of its own. *)
From Coq Require Import List Arith Bool.
Import ListNotations.

Record pp := PP { p_seq : nat; p_reqs : list nat; p_body : nat }.
Record rep := Rep { last : nat (** [lastPrePrepareSeqNo] *); ordered : nat (** [last_ordered_3pc] *);
  seen : list nat (** the requests of which there is a propagate *); fin : list nat (** of these, those that are finalised *);
  pend : list (pp * list nat) (** [prePreparesPendingFinReqs] *);
  prev : list (nat * pp) (** [prePreparesPendingPrevPP], by its keys *);
  applied : list pp (** in this order *); asked : list nat (** whose messages were asked for *) }.
Definition init : rep := Rep 0 0 [] [] [] [] [] [].

(** [SortedDict.__setitem__] *)
Fixpoint put (k : nat) (p : pp) (l : list (nat * pp)) : list (nat * pp) :=
  match l with
  | [] => [(k, p)]
  | (k', p') :: r => if k <? k' then (k, p) :: l else if k =? k' then (k, p) :: r else (k', p') :: put k p r
  end.
Definition known (s : rep) (r : nat) : bool := existsb (Nat.eqb r) (seen s).
(** propagator.py:187-188 [is_finalised] *)
Definition final (s : rep) (r : nat) : bool := known s r && existsb (Nat.eqb r) (fin s).
(** ordering_service.py:1120-1127 [_non_finalised_reqs]: those that are not known *)
Definition missing (s : rep) (p : pp) : list nat := filter (fun r => negb (known s r)) (p_reqs p).
(** ordering_service.py:568-576, 607 [bad_reqs]: those that are not known or not finalised *)
Definition bad (s : rep) (p : pp) : list nat := filter (fun r => negb (final s r)) (p_reqs p).
(** ordering_service.py:1130-1136 [_is_next_pre_prepare] *)
Definition is_next (s : rep) (k : nat) : bool := if k =? 1 then true else k =? S (last s).

Section Valid.
Variable valid : list pp -> pp -> bool.
(** the configuration's CHK_FREQ *)
Variable chk_freq : nat.

(** ordering_service.py:607-618: what is asked for when [p] is not the next: [range(seq_frm, seq_to + 1)] if
    [seq_to >= seq_frm >= pp_seq_no - CHK_FREQ + 1] *)
Definition ask (s : rep) (p : pp) : list nat :=
  let frm := S (last s) in let to := p_seq p - 1 in
  if (frm <=? to) && (S (p_seq p) <=? frm + chk_freq) then seq frm (S to - frm) else [].
(** ordering_service.py:501-644 [process_preprepare], 818-866 [_can_process_pre_prepare], 946-960 [_enqueue_pre_prepare],
    871-890, 1273-1287 (and the validator: what is ordered is discarded, ordering_service_msg_validator.py:127-135) *)
Definition receive (s : rep) (p : pp) : rep :=
  if p_seq p <=? ordered s then s
  else if p_seq p <=? last s then s
  else match missing s p with
       | _ :: _ => Rep (last s) (ordered s) (seen s) (fin s) (pend s ++ [(p, bad s p)]) (prev s) (applied s) (asked s)
       | [] => if negb (is_next s (p_seq p))
               then Rep (last s) (ordered s) (seen s) (fin s) (pend s) (put (p_seq p) p (prev s)) (applied s) (asked s ++ ask s p)
               else if valid (applied s) p
                    then Rep (p_seq p) (ordered s) (seen s) (fin s) (pend s) (prev s) (applied s ++ [p]) (asked s)
                    else s
       end.
(** ordering_service.py:1891-1908: those whose requests are all finalised now are put with those that wait for their turn, the
    last first *)
Definition now_missing (s : rep) (e : pp * list nat) : pp * list nat := (fst e, filter (fun r => negb (final s r)) (snd e)).
Definition is_ready (e : pp * list nat) : bool := match snd e with [] => true | _ :: _ => false end.
Definition check_pending (s : rep) : rep :=
  let es := map (now_missing s) (pend s) in
  Rep (last s) (ordered s) (seen s) (fin s) (filter (fun e => negb (is_ready e)) es)
      (fold_left (fun l e => put (p_seq (fst e)) (fst e) l) (rev (filter is_ready es)) (prev s)) (applied s) (asked s).
(** ordering_service.py:1924-1926 [_can_dequeue_pre_prepare] *)
Definition can_dequeue (s : rep) (k : nat) : bool := is_next s k || (k <=? ordered s).
(** ordering_service.py:1910-1922; [fuel]: every turn takes one out *)
Fixpoint dequeue (fuel : nat) (s : rep) : rep :=
  match fuel with
  | 0 => s
  | S fuel => match prev s with
              | [] => s
              | (k, p) :: r => if can_dequeue s k
                               then dequeue fuel (receive (Rep (last s) (ordered s) (seen s) (fin s) (pend s) r (applied s) (asked s)) p)
                               else s
              end
  end.
Definition service (s : rep) : rep := let s := check_pending s in dequeue (length (prev s)) s.
(** a Pre-Prepare comes, a request is propagated, finalised or forgotten, the next batch is ordered, the queues are looked at (replica.py:525) *)
Inductive op := Receive (p : pp) | See (r : nat) | Finalise (r : nat) | Forget (r : nat) | Order | Service.
Definition step (s : rep) (o : op) : rep :=
  match o with
  | Receive p => receive s p
  | See r => Rep (last s) (ordered s) (r :: seen s) (fin s) (pend s) (prev s) (applied s) (asked s)
  | Finalise r => Rep (last s) (ordered s) (seen s) (r :: fin s) (pend s) (prev s) (applied s) (asked s)
  | Forget r => Rep (last s) (ordered s) (filter (fun x => negb (x =? r)) (seen s)) (filter (fun x => negb (x =? r)) (fin s)) (pend s) (prev s) (applied s) (asked s)
  | Order => if ordered s <? last s then Rep (last s) (S (ordered s)) (seen s) (fin s) (pend s) (prev s) (applied s) (asked s) else s
  | Service => service s
  end.
Definition run (s : rep) (os : list op) : rep := fold_left step os s.
End Valid.
