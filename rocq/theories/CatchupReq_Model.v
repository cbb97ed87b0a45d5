(** Model of the splitting of missing transactions into requests:
    plenum/server/catchup/catchup_rep_service.py, [_build_catchup_reqs]. *)
From Coq Require Import List Arith Bool Lia.
From Verif Require Import Base Dict.
Import ListNotations.
Local Open Scope res_scope.

(** catchup_rep_service.py:158-161 [find_node_idx]; Python's None is [None]. *)
Fixpoint find_node_idx (sizes : list (nat * nat)) (max_seq_no : nat) : option nat :=
  match sizes with
  | [] => None
  | (_, size) :: rest =>
    if max_seq_no <=? size then Some 0 else option_map S (find_node_idx rest max_seq_no)
  end.

(** lines 163-167 [find_next_best_node_idx], giving the size found instead of its index
    (line 194 reads only the size). [exclude] is None when [find_node_idx] found nothing,
    and then nothing is excluded. [max] of an empty sequence raises ValueError. *)
Definition excluded (exclude : option nat) (i : nat) : bool :=
  match exclude with Some e => i =? e | None => false end.
Fixpoint others (sizes : list (nat * nat)) (i : nat) (exclude : option nat) : list nat :=
  match sizes with
  | [] => []
  | (_, size) :: rest => if excluded exclude i then others rest (S i) exclude else size :: others rest (S i) exclude
  end.
Definition next_best_size (sizes : list (nat * nat)) (exclude : option nat) : res nat :=
  match others sizes 0 exclude with
  | [] => Err ValueError
  | s :: ss => Ok (fold_left Nat.max ss s)
  end.

(** Python's [del l[i]] *)
Definition remove_nth {A} (i : nat) (l : list A) : list A := firstn i l ++ skipn (S i) l.

(** A CatchupReq without its ledger: first and last number asked for, and [catchupTill]. *)
Record creq := mkReq { q_start : nat; q_end : nat; q_till : nat }.

(** lines 180-208, the loop. One node leaves the list each time round, so the length of
    the list is enough fuel. Indexing a list with None raises TypeError (lines 199, 206).
    Numbers are naturals: the loop agrees with the code for [start >= 1]. *)
Fixpoint build_loop (fuel : nat) (start till batch : nat) (nodes : list (nat * nat)) (pos : nat)
    (reqs : dict creq) : res (dict creq) :=
  match fuel with
  | 0 => Ok reqs
  | S fuel' =>
    if (0 <? length nodes) && (start <=? pos) then
      let txns_left := pos - start + 1 in
      let t := Nat.min txns_left (Nat.max batch (txns_left / length nodes)) in
      let node_index := find_node_idx nodes pos in
      t <- (if 1 <? length nodes then
              next <- next_best_size nodes node_index ;;
              Ok (if next <? pos - t then pos - next else t)
            else Ok t) ;;
      match node_index with
      | None => Err TypeError
      | Some i =>
        match nth_error nodes i with
        | None => Err IndexError
        | Some (node_id, _) =>
          let reqs' := if 0 <? t then set node_id (mkReq (pos - t + 1) pos till) reqs else reqs in
          build_loop fuel' start till batch (remove_nth i nodes) (pos - t) reqs'
        end
      end
    else Ok reqs
  end.

(** lines 152-208 [_build_catchup_reqs]; [sh] is what random.shuffle does. *)
Definition build_catchup_reqs (sh : list (nat * nat) -> list (nat * nat))
    (start end_ till : nat) (sizes : dict nat) (batch : nat) : res (dict creq) :=
  let nodes := sh (map (fun '(node_id, size) => (node_id, Nat.min size end_))
                       (filter (fun '(_, size) => start <=? size) sizes)) in
  build_loop (length nodes) start till batch nodes end_ [].
