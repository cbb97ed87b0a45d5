(** Model of plenum/server/catchup/catchup_rep_service.py: asking other nodes for the missing
    transactions of one ledger, checking their replies and adding what they contain. *)
From Coq Require Import List Arith ZArith Bool Lia.
From Verif Require Import Base Dict Bits_Model Merkle_Model Ledger_Model.
From Verif Require Import CatchupReq_Model.
Import ListNotations.
Local Open Scope res_scope.

(** A key of CatchupRep.txns. The field is AnyValueField (node_messages.py:408-417), so a
    key may be any string; [int] is applied to it. [(n, 0)] is [str(n)] and [(n, i)] with
    [i > 0] stands for the other strings that [int] reads as [n] ("05", "+5", " 5", ...).
    Negative numbers are not modelled. *)
Definition ckey := (nat * nat)%type.

(** utils.py:14-17; [t_hash] is None if the string cannot be decoded. *)
Record till := mkTill { t_start : nat; t_final : nat; t_hash : option bytes }.

Section Catchup.
  Variable H : bytes -> bytes.
  Variable B : Type.
  Variable ser_log : txn B -> bytes.
  Variable ser_tree : txn B -> bytes.
  (** provider.transform_txn_for_ledger; raises for unknown types
      (write_request_manager.py:195-199) *)
  Variable transform : txn B -> res (txn B).
  (** config.CATCHUP_BATCH_SIZE and the ledger's id *)
  Variable batch lid : nat.

  (** CatchupRep. [r_txns] is None if it is not a mapping or some key is no number;
      [r_proof] is None if some string cannot be decoded. *)
  Record rep := mkRep { r_ledger : nat; r_txns : option (list (ckey * txn B)); r_proof : option (list bytes) }.

  (** what the service does, seen from outside *)
  Inductive entry :=
  | LReq (to : nat) (r : creq)              (* a CatchupReq is sent *)
  | LAdded (n : nat) (x : txn B)            (* notify_transaction_added_to_ledger, and the size before *)
  | LBlack (node : nat)                     (* blacklist_node *)
  | LDiscard                                (* provider.discard *)
  | LTimer                                  (* _request_txns_if_needed is scheduled *)
  | LComplete (n : nat)                     (* LedgerCatchupComplete(num_caught_up = n) *)
  | LRaise (e : exn).                       (* an exception leaves the service *)

  (** lines 36-45; [s_led] is the ledger itself *)
  Record st := mkSt
    { s_led : pledger B; s_working : bool; s_till : option till; s_sizes : option (dict nat);
      s_wait : list nat; s_replies : dict (list rep); s_received : list (nat * txn B);
      s_log : list entry }.

  Definition with_led p s := mkSt p (s_working s) (s_till s) (s_sizes s) (s_wait s) (s_replies s) (s_received s) (s_log s).
  Definition with_wait w s := mkSt (s_led s) (s_working s) (s_till s) (s_sizes s) w (s_replies s) (s_received s) (s_log s).
  Definition with_replies r s := mkSt (s_led s) (s_working s) (s_till s) (s_sizes s) (s_wait s) r (s_received s) (s_log s).
  Definition with_received r s := mkSt (s_led s) (s_working s) (s_till s) (s_sizes s) (s_wait s) (s_replies s) r (s_log s).
  Definition emit e s := mkSt (s_led s) (s_working s) (s_till s) (s_sizes s) (s_wait s) (s_replies s) (s_received s) (s_log s ++ [e]).

  Definition csize (s : st) : nat := size (p_base (s_led s)).

  (** lines 110-124 [_finish] *)
  Definition finish (s : st) : st :=
    let n := match s_till s with Some t => t_final t - t_start t | None => 0 end in
    mkSt (s_led s) false (s_till s) (s_sizes s) [] [] [] (s_log s ++ [LComplete n]).

  (** ** Requests *)

  (** lines 126-150 [_send_catchup_reqs] *)
  Definition send_catchup_reqs (sh : list (nat * nat) -> list (nat * nat)) (eligible : list nat)
      (frm to : nat) (s : st) : st * res nat :=
    match s_till s, s_sizes s with
    | Some t, Some sizes =>
      let good := filter (fun '(n, size) => existsb (Nat.eqb n) eligible && (t_final t <=? size)) sizes in
      let good := match good with
                  | [] => fold_left (fun d n => set n to d) eligible []
                  | _ => good
                  end in
      match build_catchup_reqs sh frm to (t_final t) good batch with
      | Err e => (s, Err e)
      | Ok reqs => (fold_left (fun s '(n, r) => emit (LReq n r) (with_wait (add n (s_wait s)) s)) reqs s,
                    Ok (length reqs))
      end
    | _, _ => (s, Err AttributeError)
    end.

  (** lines 53-78 [start]; [eligible] is what provider.eligible_nodes() returns, [sh n] is
      the n-th shuffle. *)
  Definition start (msg_till : option till) (sizes : option (dict nat)) (eligible : list nat)
      (sh : nat -> list (nat * nat) -> list (nat * nat)) (s : st) : st :=
    let s := mkSt (s_led s) true msg_till sizes (s_wait s) (s_replies s) (s_received s) (s_log s) in
    match msg_till with
    | None => finish s
    | Some t =>
      if t_final t <=? csize s then finish s
      else match eligible with
           | [] => s
           | _ => match send_catchup_reqs (sh 0) eligible (t_start t + 1) (t_final t) s with
                  | (s', Err e) => emit (LRaise e) s'
                  | (s', Ok _) => emit LTimer s'
                  end
           end
    end.

  (** lines 213-218 [_num_missing_txns] *)
  Definition num_missing (s : st) : nat :=
    match s_till s with
    | None => 0
    | Some t => t_final t - csize s - length (s_received s)
    end.

  (** lines 254-263, the loop over the gaps between received transactions; [left_missing]
      may become negative. *)
  Fixpoint request_gaps (sh : nat -> list (nat * nat) -> list (nat * nat)) (k : nat) (eligible : list nat)
      (txns : list (nat * txn B)) (last_seen : nat) (missing : Z) (s : st) : st * res (nat * nat * Z) :=
    match txns with
    | [] => (s, Ok (k, last_seen, missing))
    | (seq_no, _) :: rest =>
      if seq_no =? last_seen + 1 then request_gaps sh k eligible rest seq_no missing s
      else
        match send_catchup_reqs (sh k) eligible (last_seen + 1) (seq_no - 1) s with
        | (s', Err e) => (s', Err e)
        | (s', Ok _) =>
          request_gaps sh (S k) eligible rest seq_no
            (missing - (Z.of_nat seq_no - 1 - Z.of_nat (last_seen + 1) + 1))%Z s'
        end
    end.

  (** lines 220-289 [_request_txns_if_needed], called by the timer *)
  Definition request_txns_if_needed (eligible : list nat)
      (sh : nat -> list (nat * nat) -> list (nat * nat)) (s : st) : st :=
    if negb (s_working s) then s
    else if num_missing s =? 0 then s
    else
      let eligible := if forallb (fun n => existsb (Nat.eqb n) (s_wait s)) eligible then eligible
                      else filter (fun n => negb (existsb (Nat.eqb n) (s_wait s))) eligible in
      let s := with_wait [] s in
      match eligible with
      | [] => s
      | _ =>
        match s_till s with
        | None => s (* num_missing is 0 then *)
        | Some t =>
          match request_gaps sh 0 eligible (s_received s) (csize s) (Z.of_nat (num_missing s)) s with
          | (s1, Err e) => emit (LRaise e) s1
          | (s1, Ok (k, last_seen, missing)) =>
            if (0 <? missing)%Z then
              if (last_seen =? csize s1) || negb (last_seen =? t_final t) then
                match send_catchup_reqs (sh k) eligible (last_seen + 1) (t_final t) s1 with
                | (s2, Err e) => emit (LRaise e) s2
                | (s2, Ok _) => emit LTimer s2
                end
              else emit LTimer s1
            else emit LTimer s1
          end
        end
      end.

  (** ** Replies *)

  (** lines 301-316 [_get_interesting_txns_from_catchup_rep]; [sorted] is stable *)
  Fixpoint insert_by (x : nat * txn B) (l : list (nat * txn B)) : list (nat * txn B) :=
    match l with
    | [] => [x]
    | y :: l' => if fst x <=? fst y then x :: l else y :: insert_by x l'
    end.
  Definition sort_by (l : list (nat * txn B)) : list (nat * txn B) := fold_right insert_by [] l.
  Fixpoint contiguous (l : list (nat * txn B)) : bool :=
    match l with
    | x :: ((y :: _) as l') => (fst y =? fst x + 1) && contiguous l'
    | _ => true
    end.
  Definition interesting (ledger_size : nat) (txns : list (ckey * txn B)) : option (list (nat * txn B)) :=
    let l := sort_by (map (fun '(k, x) => (fst k, x)) txns) in
    if negb (existsb (fun x => ledger_size <? fst x) l) then None
    else if negb (contiguous l) then None
    else Some l.

  (** lines 319-339 [_merge_catchup_txns]; heapq.merge takes from the first list on ties *)
  Fixpoint idx_to_remove (existing : list (nat * txn B)) (a b : nat) : list nat :=
    match existing with
    | [] => []
    | (seq_no, _) :: rest =>
      if seq_no <? a then idx_to_remove rest a b
      else if b <? seq_no then []
      else (seq_no - a) :: idx_to_remove rest a b
    end.
  Fixpoint merge_by (l1 : list (nat * txn B)) : list (nat * txn B) -> list (nat * txn B) :=
    match l1 with
    | [] => fun l2 => l2
    | x :: l1' =>
      fix inner (l2 : list (nat * txn B)) : list (nat * txn B) :=
        match l2 with
        | [] => l1
        | y :: l2' => if fst x <=? fst y then x :: merge_by l1' l2 else y :: inner l2'
        end
    end.
  Definition merge_catchup_txns (existing new : list (nat * txn B)) : list (nat * txn B) :=
    match new with
    | [] => existing (* callers give a non-empty list *)
    | x :: _ =>
      let a := fst x in
      let b := fst (last new x) in
      merge_by existing (fold_left (fun l i => remove_nth i l) (rev (idx_to_remove existing a b)) new)
    end.

  (** [str(seq_no) in rep.txns] *)
  Definition in_rep (seq_no : nat) (r : rep) : bool :=
    match r_txns r with
    | Some l => existsb (fun '(k, _) => (fst k =? seq_no) && (snd k =? 0)) l
    | None => false
    end.
  Definition rep_len (r : rep) : nat := match r_txns r with Some l => length l | None => 0 end.

  (** lines 428-434 [_find_catchup_reply_for_seq_no] *)
  Fixpoint find_reply (seq_no : nat) (replies : dict (list rep)) : option (nat * rep) :=
    match replies with
    | [] => None
    | (frm, reps) :: rest =>
      match find (in_rep seq_no) reps with
      | Some r => Some (frm, r)
      | None => find_reply seq_no rest
      end
    end.

  (** lines 440-444 [_remove_processed_catchup_reply]: the first reply with the number; the
      last one if there is none (a loop variable after its loop) *)
  Fixpoint remove_first (seq_no : nat) (reps : list rep) : list rep :=
    match reps with
    | [] => []
    | [r] => []
    | r :: rest => if in_rep seq_no r then rest else r :: remove_first seq_no rest
    end.
  Definition remove_processed (node seq_no : nat) (s : st) : st :=
    with_replies (set node (remove_first seq_no (get_or node [] (s_replies s))) (s_replies s)) s.

  (** lines 375-426 [_has_valid_catchup_replies]; what raises inside the [try] makes the
      check fail, what raises outside leaves the function *)
  Definition has_valid_catchup_replies (s : st) (seq_no : nat) (txns : list (nat * txn B))
    : res (bool * nat * nat) :=
    match find_reply seq_no (s_replies s), s_till s with
    | None, _ => Err TypeError
    | _, None => Err AttributeError
    | Some (node, r), Some t =>
      xs <- mapM transform (map snd (filter (fun x => in_rep (fst x) r) (firstn (rep_len r) txns))) ;;
      temp <- treeWithAppliedTxns H B ser_tree (s_led s) xs None ;;
      let verified :=
        root <- root_hash H temp ;;
        match t_hash t, r_proof r with
        | Some final_hash, Some proof =>
          verify_tree_consistency H (tree_size temp) (t_final t) root final_hash proof
        | _, _ => Err ValueError
        end in
      Ok (match verified with Ok _ => true | Err _ => false end, node, length xs)
    end.

  (** lines 358-359, 436-438 [_add_txn] for each *)
  Fixpoint add_txns (txns : list (nat * txn B)) (s : st) : st * res unit :=
    match txns with
    | [] => (s, Ok tt)
    | (_, x) :: rest =>
      match y <- transform x ;; p_add H B ser_log ser_tree (s_led s) y with
      | Err e => (s, Err e)
      | Ok (_, p, _) => add_txns rest (emit (LAdded (csize s) x) (with_led p s))
      end
    end.

  (** lines 354-373, the loop of [_process_catchup_txns]. Every round removes at least one
      transaction, so their number is enough fuel. *)
  Fixpoint process_loop (fuel : nat) (txns : list (nat * txn B)) (num : nat) (s : st) : st * res nat :=
    match fuel with
    | 0 => (s, Ok num)
    | S fuel' =>
      match txns with
      | [] => (s, Ok num)
      | (seq_no, _) :: _ =>
        if seq_no =? l_seqNo (p_base (s_led s)) + 1 then
          match has_valid_catchup_replies s seq_no txns with
          | Err e => (s, Err e)
          | Ok (true, node, k) =>
            match add_txns (firstn k txns) s with
            | (s1, Err e) => (s1, Err e)
            | (s1, Ok _) => process_loop fuel' (skipn k txns) (num + k) (remove_processed node seq_no s1)
            end
          | Ok (false, node, k) => (remove_processed node seq_no (emit (LBlack node) s), Ok (num + k))
          end
        else (s, Ok num)
      end
    end.

  (** lines 341-373 [_process_catchup_txns] *)
  Definition process_catchup_txns (txns : list (nat * txn B)) (s : st) : st * res nat :=
    let num := length (filter (fun x => fst x <=? csize s) txns) in
    process_loop (length txns) (skipn num txns) num s.

  (** lines 80-108, 291-299 [process_catchup_rep] *)
  Definition process_catchup_rep (r : rep) (frm : nat) (s : st) : st :=
    if negb (r_ledger r =? lid) then s
    else if negb (s_working s) then s
    else
      let s := with_wait (filter (fun n => negb (n =? frm)) (s_wait s)) s in
      match r_txns r with
      | None => emit (LRaise ValueError) s
      | Some l =>
        match interesting (csize s) l with
        | None => emit LDiscard s
        | Some txns =>
          let s := with_replies (set frm (get_or frm [] (s_replies s) ++ [r]) (s_replies s)) s in
          let merged := merge_catchup_txns (s_received s) txns in
          match process_catchup_txns merged s with
          | (s1, Err e) => emit (LRaise e) s1
          | (s1, Ok num) =>
            let s2 := with_received (skipn num merged) s1 in
            match s_till s2 with
            | None => emit (LRaise AttributeError) s2
            | Some t => if t_final t <=? csize s2 then finish s2 else s2
            end
          end
        end
      end.

  (** ** Histories: any order of starts, replies and timer calls *)
  Inductive op :=
  | OStart (t : option till) (sizes : option (dict nat)) (eligible : list nat)
      (sh : nat -> list (nat * nat) -> list (nat * nat))
  | ORep (r : rep) (frm : nat)
  | OTimer (eligible : list nat) (sh : nat -> list (nat * nat) -> list (nat * nat)).

  Definition step (s : st) (o : op) : st :=
    match o with
    | OStart t sizes eligible sh => start t sizes eligible sh s
    | ORep r frm => process_catchup_rep r frm s
    | OTimer eligible sh => request_txns_if_needed eligible sh s
    end.
  Definition run (os : list op) (s : st) : st := fold_left step os s.

  (** lines 36-45: a new service on a ledger *)
  Definition init (p : pledger B) : st := mkSt p false None None [] [] [] [].
End Catchup.
