(** Model of NewViewBuilder (plenum/server/consensus/view_change_service.py:358-487) and of
    the messages it reads (plenum/common/messages/node_messages.py, batch_id.py).

    Numbers in these messages are non-negative (BatchIDField and NonNegativeNumberField
    reject the others), so they are [nat].  A digest is an opaque string; a natural number
    stands for it, and only equality of digests and the fact that they are totally ordered
    matter. *)
From Coq Require Import List Arith Bool Lia.
From Verif Require Import Quorum_Model.
Import ListNotations.

(** batch_id.py:11-13 [BatchID] *)
Record batch_id := BatchID { view_no : nat; pp_view_no : nat; pp_seq_no : nat; pp_digest : nat }.

(** node_messages.py [Checkpoint] (instId, viewNo, seqNoStart, seqNoEnd, digest) *)
Record cp_msg := Checkpoint {
  cp_inst : nat; cp_view : nat; cp_start : nat; cp_end : nat; cp_digest : nat }.

(** node_messages.py [ViewChange] (viewNo, stableCheckpoint, prepared, preprepared, checkpoints) *)
Record view_change_msg := ViewChange {
  vc_view : nat; vc_stable : nat;
  vc_prepared : list batch_id; vc_preprepared : list batch_id;
  vc_checkpoints : list cp_msg }.

(** equality of messages compares all fields *)
Definition cp_eqb (a b : cp_msg) : bool :=
  (cp_inst a =? cp_inst b) && (cp_view a =? cp_view b) && (cp_start a =? cp_start b)
  && (cp_end a =? cp_end b) && (cp_digest a =? cp_digest b).

Definition cp_mem (c : cp_msg) (l : list cp_msg) : bool := existsb (cp_eqb c) l.

(** [sum(1 for vc in vcs if check(vc))] and [len([vc for vc in vcs if ...])] *)
Definition count (check : view_change_msg -> bool) (vcs : list view_change_msg) : nat :=
  length (filter check vcs).

Section Builder.
  Variable q : quorums.
  Variable log_size : nat.

  (** view_change_service.py:373-388: the two quorum checks of one candidate *)
  Definition cp_acceptable (vcs : list view_change_msg) (cp : cp_msg) : bool :=
    is_reached (strong q) (count (fun vc => vc_stable vc <=? cp_end cp) vcs)
    && is_reached (strong q) (count (fun vc => cp_mem cp (vc_checkpoints vc)) vcs).

  (** view_change_service.py:366-388: inner loop over the checkpoints of one message *)
  Fixpoint collect_cps (vcs : list view_change_msg) (l acc : list cp_msg) : list cp_msg :=
    match l with
    | [] => acc
    | c :: l' =>
        if cp_mem c acc then collect_cps vcs l' acc
        else if cp_acceptable vcs c then collect_cps vcs l' (acc ++ [c])
        else collect_cps vcs l' acc
    end.

  (** view_change_service.py:365-388: outer loop over the messages *)
  Fixpoint candidates (vcs todo : list view_change_msg) (acc : list cp_msg) : list cp_msg :=
    match todo with
    | [] => acc
    | vc :: todo' => candidates vcs todo' (collect_cps vcs (vc_checkpoints vc) acc)
    end.

  (** view_change_service.py:390-394 *)
  Fixpoint highest (l : list cp_msg) (best : option cp_msg) : option cp_msg :=
    match l with
    | [] => best
    | c :: l' =>
        match best with
        | None => highest l' (Some c)
        | Some b => if cp_end b <? cp_end c then highest l' (Some c) else highest l' best
        end
    end.

  (** view_change_service.py:363-396 [calc_checkpoint] *)
  Definition calc_checkpoint (vcs : list view_change_msg) : option cp_msg :=
    highest (candidates vcs vcs []) None.

  (** view_change_service.py:439-450: one entry of [vc.prepared] does not stop the check *)
  Definition not_contradicting (bid some_bid : batch_id) : bool :=
    if negb (pp_seq_no some_bid =? pp_seq_no bid) then true
    else if view_no bid <? view_no some_bid then false
    else if (view_no bid <=? view_no some_bid) && negb (pp_digest some_bid =? pp_digest bid) then false
    else if (view_no bid <=? view_no some_bid) && negb (pp_view_no some_bid =? pp_view_no bid) then false
    else true.

  (** view_change_service.py:435-452 [check] of [_is_batch_prepared] *)
  Definition prepared_witness (bid : batch_id) (vc : view_change_msg) : bool :=
    if pp_seq_no bid <=? vc_stable vc then false
    else forallb (not_contradicting bid) (vc_prepared vc).

  (** view_change_service.py:434-455 [_is_batch_prepared] *)
  Definition is_batch_prepared (bid : batch_id) (vcs : list view_change_msg) : bool :=
    is_reached (strong q) (count (prepared_witness bid) vcs).

  (** view_change_service.py:458-470 [check] of [_is_batch_preprepared] *)
  Definition preprepared_witness (bid : batch_id) (vc : view_change_msg) : bool :=
    existsb (fun some_bid =>
               if negb (pp_seq_no some_bid =? pp_seq_no bid) then false
               else if negb (pp_view_no some_bid =? pp_view_no bid) then false
               else if negb (pp_digest some_bid =? pp_digest bid) then false
               else view_no bid <=? view_no some_bid) (vc_preprepared vc).

  (** view_change_service.py:457-473 [_is_batch_preprepared] *)
  Definition is_batch_preprepared (bid : batch_id) (vcs : list view_change_msg) : bool :=
    is_reached (weak q) (count (preprepared_witness bid) vcs).

  (** view_change_service.py:422-430: the candidates of one message, in order *)
  Definition good_candidate (vcs : list view_change_msg) (seq_no : nat) (bid : batch_id) : bool :=
    if negb (pp_seq_no bid =? seq_no) then false
    else if negb (is_batch_prepared bid vcs) then false
    else is_batch_preprepared bid vcs.

  (** view_change_service.py:420-432 [_try_find_batch_for_pp_seq_no] *)
  Fixpoint try_find_batch (vcs todo : list view_change_msg) (seq_no : nat) : option batch_id :=
    match todo with
    | [] => None
    | vc :: todo' =>
        match find (good_candidate vcs seq_no) (vc_prepared vc) with
        | Some bid => Some bid
        | None => try_find_batch vcs todo' seq_no
        end
    end.

  (** view_change_service.py:476-484 [check] of [_check_null_batch] *)
  Definition null_witness (seq_no : nat) (vc : view_change_msg) : bool :=
    if seq_no <=? vc_stable vc then false
    else negb (existsb (fun b => pp_seq_no b =? seq_no) (vc_prepared vc)).

  (** view_change_service.py:475-487 [_check_null_batch] *)
  Definition check_null_batch (vcs : list view_change_msg) (seq_no : nat) : bool :=
    is_reached (strong q) (count (null_witness seq_no) vcs).

  (** Python's [set.add]; a set is a list without repetitions *)
  Definition bid_eqb (a b : batch_id) : bool :=
    (view_no a =? view_no b) && (pp_view_no a =? pp_view_no b)
    && (pp_seq_no a =? pp_seq_no b) && (pp_digest a =? pp_digest b).
  Definition set_add (b : batch_id) (l : list batch_id) : list batch_id :=
    if existsb (bid_eqb b) l then l else l ++ [b].

  (** view_change_service.py:402-416: the loop, [left] iterations before the bound *)
  Fixpoint batches_loop (vcs : list view_change_msg) (left seq_no : nat) (batches : list batch_id)
    : option (list batch_id) :=
    match left with
    | 0 => Some batches
    | S left' =>
        match try_find_batch vcs vcs seq_no with
        | Some bid => batches_loop vcs left' (S seq_no) (set_add bid batches)
        | None => if check_null_batch vcs seq_no then Some batches else None
        end
    end.

  (** order of named tuples: field by field *)
  Definition bid_leb (a b : batch_id) : bool :=
    if view_no a =? view_no b then
      if pp_view_no a =? pp_view_no b then
        if pp_seq_no a =? pp_seq_no b then pp_digest a <=? pp_digest b
        else pp_seq_no a <=? pp_seq_no b
      else pp_view_no a <=? pp_view_no b
    else view_no a <=? view_no b.

  Fixpoint insert (b : batch_id) (l : list batch_id) : list batch_id :=
    match l with
    | [] => [b]
    | c :: l' => if bid_leb b c then b :: l else c :: insert b l'
    end.

  (** Python's [sorted]; an insertion sort gives the same list *)
  Fixpoint sorted (l : list batch_id) : list batch_id :=
    match l with
    | [] => []
    | b :: l' => insert b (sorted l')
    end.

  (** view_change_service.py:398-418 [calc_batches] *)
  Definition calc_batches (cp : cp_msg) (vcs : list view_change_msg) : option (list batch_id) :=
    match batches_loop vcs log_size (S (cp_end cp)) [] with
    | Some batches => Some (sorted batches)
    | None => None
    end.

  (** view_change_service.py:318-319: the last batch of the previous view that
      [_finish_view_change] remembers; it orders what comes after it with new PrePrepares *)
  Definition prev_view_prepare_cert (cp : cp_msg) (batches : list batch_id) : nat :=
    match rev batches with
    | b :: _ => pp_seq_no b
    | [] => cp_end cp
    end.

  (** equality of lists of batch ids *)
  Fixpoint bids_eqb (l m : list batch_id) : bool :=
    match l, m with
    | [], [] => true
    | a :: l', b :: m' => bid_eqb a b && bids_eqb l' m'
    | _, _ => false
    end.

  (** view_change_service.py:280-312: what a replica checks of a received NewView, once it has
      the listed ViewChange messages [vcs] (the list may name one message several times; the
      code does not look) *)
  Definition new_view_valid (vcs : list view_change_msg) (cp : cp_msg) (batches : list batch_id) : bool :=
    match calc_checkpoint vcs with
    | None => false
    | Some c =>
        if negb (cp_eqb c cp) then false
        else match calc_batches c vcs with
             | Some bs => bids_eqb bs batches
             | None => false
             end
    end.
End Builder.
