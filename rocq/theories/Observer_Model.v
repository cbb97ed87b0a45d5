(** Model of the observer of committed batches: ObserverSyncPolicyEachBatch in
    plenum/server/observer/observer_sync_policy_each_batch.py. Writing a batch to the ledgers
    (_do_apply_batch, lines 142-153) is recorded in a list. *)
From Coq Require Import List Arith Bool.
Import ListNotations.

(** BatchCommitted (node_messages.py:496-522): numbers of the first and last transaction in the batch's
    ledger, the ledger, and all the rest *)
Record batch := mkB { b_start : nat; b_end : nat; b_ledger : nat; b_rest : nat }.
Definition batch_eqb (a b : batch) : bool :=
  (b_start a =? b_start b) && (b_end a =? b_end b) && (b_ledger a =? b_ledger b) && (b_rest a =? b_rest b).
Definition node := nat.

(** dictionaries in the order of insertion *)
Fixpoint get {V} (k : nat) (m : list (nat * V)) : option V :=
  match m with [] => None | (k', v) :: m' => if k' =? k then Some v else get k m' end.
Fixpoint set {V} (k : nat) (v : V) (m : list (nat * V)) : list (nat * V) :=
  match m with [] => [(k, v)] | (k', v') :: m' => if k' =? k then (k, v) :: m' else (k', v') :: set k v m' end.
Definition del {V} (k : nat) (m : list (nat * V)) : list (nat * V) := filter (fun p => negb (fst p =? k)) m.

(** lines 28-33; [o_last] = 0 stands for None: the code asks for a true value (lines 79, 101). The heap is
    kept sorted. [o_applied]: the batches written, the latest last *)
Record obs := mkO { o_last : nat; o_batches : list (nat * list (node * batch)); o_heap : list nat; o_applied : list batch }.
Definition init : obs := mkO 0 [] [] [].

Fixpoint heappush (x : nat) (l : list nat) : list nat := match l with [] => [x] | y :: l' => if x <=? y then x :: l else y :: heappush x l' end.

(** lines 78-86 *)
Definition can_process (o : obs) (b : batch) : bool := (o_last o =? 0) || negb (b_start b <=? o_last o).
(** lines 88-95 *)
Definition add_batch (o : obs) (b : batch) (sender : node) : obs :=
  match get (b_start b) (o_batches o) with
  | None => mkO (o_last o) (set (b_start b) [(sender, b)] (o_batches o)) (heappush (b_start b) (o_heap o)) (o_applied o)
  | Some m => mkO (o_last o) (set (b_start b) (set sender b m) (o_batches o)) (o_heap o) (o_applied o)
  end.
Definition count (b : batch) (m : list (node * batch)) : nat := length (filter (fun p => batch_eqb b (snd p)) m).
(** util.py:90-130 [mostCommonElement]: how often the most frequent one occurs *)
Definition most_common (m : list (node * batch)) : nat := fold_right Nat.max 0 (map (fun p => count (snd p) m) m).

Section Obs.
  Variable quorum : nat.     (* quorums.py:38: f + 1 *)
  (** lines 97-132; None is an exception (IndexError or KeyError) *)
  Definition can_apply (o : obs) (b : batch) : option bool :=
    match (if o_last o =? 0 then hd_error (o_heap o) else Some (o_last o + 1)) with
    | None => None
    | Some next =>
      if negb (b_start b =? next) then Some false
      else match get (b_start b) (o_batches o) with
      | None => None
      | Some m => Some ((quorum <=? length m) && (quorum <=? most_common m))
      end
    end.
  (** lines 134-141 *)
  Definition do_apply_data (o : obs) (b : batch) : option obs :=
    match get (b_start b) (o_batches o), o_heap o with
    | Some _, _ :: h => Some (mkO (b_end b) (del (b_start b) (o_batches o)) h (o_applied o ++ [b]))
    | _, _ => None
    end.
  (** lines 155-169; the fuel is the length of the heap, which every turn makes shorter *)
  Fixpoint process_stashed (fuel : nat) (o : obs) : option obs :=
    match o_batches o, o_heap o with
    | [], _ => Some o
    | _, [] => Some o
    | _, next :: _ =>
      match get next (o_batches o) with
      | None => None
      | Some [] => None
      | Some ((_, b) :: _) =>
        match can_apply o b with
        | None => None
        | Some false => Some o
        | Some true => match do_apply_data o b, fuel with Some o', S fuel' => process_stashed fuel' o' | _, _ => None end
        end
      end
    end.
  (** lines 39-68 *)
  Definition apply_data (o : obs) (b : batch) (sender : node) : option obs :=
    if negb (can_process o b) then Some o
    else let o1 := add_batch o b sender in
    match can_apply o1 b with
    | None => None
    | Some false => Some o1
    | Some true => match do_apply_data o1 b with Some o2 => process_stashed (length (o_heap o2)) o2 | None => None end
    end.
  Fixpoint run (o : obs) (ms : list (batch * node)) : option obs :=
    match ms with [] => Some o | (b, s) :: ms' => match apply_data o b s with Some o' => run o' ms' | None => None end end.
End Obs.
