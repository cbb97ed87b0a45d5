(** Model of plenum/persistence/client_req_rep_store_file.py, client_req_rep_store.py:65-71, client_txn_log.py and of
    storage/directory_store.py: what a client keeps of its requests and of the answers of nodes.  Text is a list of characters (code
    points).  Requests and results are modelled as the texts they are serialized to.  Not modelled: files (a key is the name of one: keys
    with slashes), translation of line ends, [int] of anything but digits. *)
From Coq Require Import List Arith NArith Bool DecimalN.
Import ListNotations.

Notation text := (list nat).
Definition newline : nat := 10.
Definition comma : nat := 44.
Definition tilde : nat := 126.
Fixpoint text_eqb (a b : text) : bool :=
  match a, b with [] , [] => true | x :: a, y :: b => (x =? y) && text_eqb a b | _, _ => false end.
(** [str] of a number, [int] of a text of digits *)
Fixpoint chars (d : Decimal.uint) : text :=
  match d with
  | Decimal.Nil => []
  | Decimal.D0 d => 48 :: chars d | Decimal.D1 d => 49 :: chars d | Decimal.D2 d => 50 :: chars d | Decimal.D3 d => 51 :: chars d
  | Decimal.D4 d => 52 :: chars d | Decimal.D5 d => 53 :: chars d | Decimal.D6 d => 54 :: chars d | Decimal.D7 d => 55 :: chars d
  | Decimal.D8 d => 56 :: chars d | Decimal.D9 d => 57 :: chars d
  end.
Definition digit (c : nat) (d : Decimal.uint) : option Decimal.uint :=
  match c - 48 with
  | 0 => if c =? 48 then Some (Decimal.D0 d) else None
  | 1 => Some (Decimal.D1 d) | 2 => Some (Decimal.D2 d) | 3 => Some (Decimal.D3 d) | 4 => Some (Decimal.D4 d) | 5 => Some (Decimal.D5 d)
  | 6 => Some (Decimal.D6 d) | 7 => Some (Decimal.D7 d) | 8 => Some (Decimal.D8 d) | 9 => Some (Decimal.D9 d) | _ => None
  end.
Fixpoint uint_of (t : text) : option Decimal.uint :=
  match t with [] => Some Decimal.Nil | c :: r => match uint_of r with Some d => digit c d | None => None end end.
Definition str (n : N) : text := chars (N.to_uint n).
Definition int (t : text) : option N := match t with [] => None | _ => option_map N.of_uint (uint_of t) end.

Section Breaks.
(** where [splitlines] breaks *)
Variable breaks : nat -> bool.
(** [splitlines]; a last line without an end counts, an empty one does not; \r\n makes an empty line here *)
Fixpoint split_lines (cur : text) (t : text) : list text :=
  match t with
  | [] => match cur with [] => [] | _ => [rev cur] end
  | c :: r => if breaks c then rev cur :: split_lines [] r else split_lines (c :: cur) r
  end.
(** [split('~', 1)] into two; [None]: ValueError on unpacking *)
Fixpoint cut (sep : nat) (t : text) : option (text * text) :=
  match t with
  | [] => None
  | c :: r => if c =? sep then Some ([], r) else match cut sep r with Some (a, b) => Some (c :: a, b) | None => None end
  end.

(** *** storage/directory_store.py: the texts by key *)
Notation files := (list (text * text)).
Fixpoint file (k : text) (fs : files) : option text := match fs with [] => None | (k', t) :: r => if text_eqb k k' then Some t else file k r end.
(** directory_store.py:44-47 *)
Fixpoint append (k v : text) (fs : files) : files :=
  match fs with
  | [] => [(k, v ++ [newline])]
  | (k', t) :: r => if text_eqb k k' then (k', t ++ v ++ [newline]) :: r else (k', t) :: append k v r
  end.

(** *** client_req_rep_store_file.py *)
(** :37-39 *)
Definition create_key (idr : text) (id : N) : text := idr ++ comma :: str id.
(** :46-91: what is added, and the line for it (:29, :30) *)
Inductive item := Request (t : text) | Ack (sender : text) | Nack (sender reason : text) | Reject (sender reason : text) | Reply (sender result : text).
Definition line_of (i : item) : text :=
  match i with
  | Request t => 48 :: tilde :: t
  | Ack s => 65 :: tilde :: s
  | Nack s r => 78 :: tilde :: s ++ tilde :: r
  | Reject s r => 74 :: tilde :: s ++ tilde :: r
  | Reply s r => 82 :: tilde :: s ++ tilde :: r
  end.
Definition add_item (fs : files) (idr : text) (id : N) (i : item) : files := append (create_key idr id) (line_of i) fs.
(** :146-151 *)
Definition starts (p : nat) (l : text) : bool := match l with a :: b :: _ => (a =? p) && (b =? tilde) | _ => false end.
Definition lines_with (fs : files) (idr : text) (id : N) (p : nat) : list text :=
  match file (create_key idr id) fs with Some t => filter (starts p) (split_lines [] t) | None => [] end.
(** :93-95 *)
Definition has_request (fs : files) (idr : text) (id : N) : bool := match file (create_key idr id) fs with Some _ => true | None => false end.
(** :97-101 *)
Definition get_request (fs : files) (idr : text) (id : N) : option text := match lines_with fs idr id 48 with [] => None | l :: _ => Some (skipn 2 l) end.
(** :109-113 *)
Definition get_acks (fs : files) (idr : text) (id : N) : list text := map (skipn 2) (lines_with fs idr id 65).
(** :115-134, 153-162: by sender, the last one counts; [None]: ValueError *)
Fixpoint put (k v : text) (d : list (text * text)) : list (text * text) :=
  match d with [] => [(k, v)] | (k', v') :: r => if text_eqb k k' then (k', v) :: r else (k', v') :: put k v r end.
Fixpoint by_sender (ls : list text) (d : list (text * text)) : option (list (text * text)) :=
  match ls with [] => Some d | l :: r => match cut tilde (skipn 2 l) with Some (s, v) => by_sender r (put s v d) | None => None end end.
Definition get_nacks (fs : files) (idr : text) (id : N) := by_sender (lines_with fs idr id 78) [].
Definition get_rejects (fs : files) (idr : text) (id : N) := by_sender (lines_with fs idr id 74) [].
Definition get_replies (fs : files) (idr : text) (id : N) := by_sender (lines_with fs idr id 82) [].
(** :80-91: the number told by [addReply] *)
Definition add_reply (fs : files) (idr : text) (id : N) (s r : text) : files * option nat :=
  let fs' := add_item fs idr id (Reply s r) in (fs', option_map (@length _) (get_replies fs' idr id)).
(** client_req_rep_store.py:65-71 *)
Definition get_all_replies (fs : files) (idr : text) (id : N) :=
  match get_replies fs idr id, get_nacks fs idr id with
  | Some rs, Some [] => match get_rejects fs idr id with Some js => Some (rs, js) | None => None end
  | Some rs, Some es => Some (rs, es)
  | _, _ => None
  end.
(** [split(',')] *)
Fixpoint split_on (sep : nat) (cur : text) (t : text) : list text :=
  match t with [] => [rev cur] | c :: r => if c =? sep then rev cur :: split_on sep [] r else split_on sep (c :: cur) r end.
(** :32-35; [None]: an index or a number that is not there *)
Fixpoint last_req_id (fs : files) : option N :=
  match fs with
  | [] => Some 0%N
  | (k, _) :: r => match split_on comma [] k with
                   | _ :: x :: _ => match int x, last_req_id r with Some n, Some m => Some (N.max n m) | _, _ => None end
                   | _ => None
                   end
  end.
End Breaks.

(** *** client_txn_log.py:33-41 *)
Definition txn_key (idr : text) (id : N) : text := idr ++ str id.
Definition log_append (log : list text) (idr : text) (id : N) : list text := if existsb (text_eqb (txn_key idr id)) log then log else txn_key idr id :: log.
Definition has_txn (log : list text) (idr : text) (id : N) : bool := existsb (text_eqb (txn_key idr id)) log.
