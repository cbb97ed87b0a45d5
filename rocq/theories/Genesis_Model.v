(** Model of genesis files: plenum/common/txn_util.py:39-57 [createGenesisTxnFile],
    ledger/genesis_txn/genesis_txn_initiator_from_file.py, storage/text_file_store.py, storage/store_utils.py and the start
    of a ledger, ledger/ledger.py:66-69.  Text is a list of character codes (10: line feed, 13: carriage return).
    Simplified: adding a transaction to a ledger is one write (after a crash in it, C07 says, the ledger is as its log);
    the recovery of the tree is C07. *)
From Coq Require Import List Arith Bool.
Import ListNotations.

Notation LF := 10.
Notation CR := 13.
Definition is_end (c : nat) : bool := (c =? LF) || (c =? CR).

(** Reading a text file line by line, and store_utils.py:4-11 [cleanLines]: line feed, carriage return and both together end
    a line; they are stripped; empty lines are dropped (so the one between the two characters of a pair may stay here). *)
Fixpoint split_lines (cur : list nat) (s : list nat) : list (list nat) :=
  match s with
  | [] => [cur]
  | c :: s' => if is_end c then cur :: split_lines [] s' else split_lines (cur ++ [c]) s'
  end.
Definition clean_lines (s : list nat) : list (list nat) := filter (fun l => negb (length l =? 0)) (split_lines [] s).

(** text_file_store.py:41-56 [_append_new_line_if_req]: seeking to two characters before the end fails in a file of one *)
Definition open_text (s : list nat) : option (list nat) :=
  match length s with
  | 0 => Some s
  | 1 => None
  | n => Some (if (nth (n - 2) s 0 =? CR) && (nth (n - 1) s 0 =? LF) then s else s ++ [CR; LF])
  end.
(** kv_store_single_file.py:27-56 [put], without keys and hashes *)
Definition put_line (s v : list nat) : list nat := s ++ v ++ [CR; LF].

Section Genesis.
  Variable txn : Type.
  (** json_serializer.py: a transaction as text without line ends, and back ([None]: an exception) *)
  Variable ser : txn -> list nat.
  Variable de : list nat -> option txn.
  (** txn_util.py [get_from], and [append_payload_metadata] with a request number *)
  Variable author : txn -> nat.
  Variable with_number : txn -> nat -> txn.

  (** opening the file as a ledger reads its lines (ledger.py:94-106): an exception at a bad one *)
  Definition readable (s : list nat) : bool := forallb (fun l => match de l with Some _ => true | None => false end) (clean_lines s).
  (** txn_util.py:39-52 [createGenesisTxnFile]: the transactions of each author are numbered; [c]: the last numbers *)
  Fixpoint numbered (c : nat -> nat) (txns : list txn) : list txn :=
    match txns with
    | [] => []
    | t :: ts => let n := S (c (author t)) in with_number t n :: numbered (fun a => if a =? author t then n else c a) ts
    end.
  (** txn_util.py:39-57 [createGenesisTxnFile]: [old] is what the file held ([]: it is new), [reset] the argument *)
  Definition create_file (old : list nat) (reset : bool) (txns : list txn) : option (list nat) :=
    match open_text old with
    | None => None
    | Some s => if readable s then Some (fold_left put_line (map ser (numbered (fun _ => 0) txns)) (if reset then [] else s)) else None
    end.

  (** A node's ledger and genesis file ([None]: there is none); [up]: the node runs. *)
  Record node := Node { file : option (list nat); log : list txn; up : bool }.
  (** genesis_txn_initiator_from_file.py:25-38: what is added, and whether all lines could be read *)
  Fixpoint adds (ls : list (list nat)) : list txn * bool :=
    match ls with
    | [] => ([], true)
    | l :: ls' => match de l with None => ([], false) | Some t => let (ts, ok) := adds ls' in (t :: ts, ok) end
    end.
  (** ledger.py:66-69: the start of the ledger; a crash after [cut] transactions were added *)
  Definition start (n : node) (cut : option nat) : node :=
    if up n then n
    else match log n, file n with
    | [], Some s =>
        let (ts, ok) := adds (clean_lines s) in
        match cut with
        | Some k => Node (file n) (firstn k ts) false
        | None => Node (file n) ts ok
        end
    | _, _ => Node (file n) (log n) (match cut with Some _ => false | None => true end)
    end.
  Inductive op := Start (cut : option nat) | Stop | Add (t : txn) | Put (s : option (list nat)).
  (** [Add]: a transaction ordered or caught up; [Put]: somebody puts or removes the genesis file *)
  Definition step (n : node) (o : op) : node :=
    match o with
    | Start cut => start n cut
    | Stop => Node (file n) (log n) false
    | Add t => if up n then Node (file n) (log n ++ [t]) true else n
    | Put s => Node s (log n) (up n)
    end.
  Definition run (n : node) (os : list op) : node := fold_left step os n.
  Definition fresh (s : option (list nat)) : node := Node s [] false.
End Genesis.
