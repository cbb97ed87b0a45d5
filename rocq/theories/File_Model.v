(** The stores that keep a log in files: one file of records with separators, and a directory of files with a fixed number of records each.
    storage/kv_store_file.py, storage/kv_store_single_file.py, storage/binary_file_store.py, storage/chunked_file_store.py; chosen by
    storage/helper.py:36-56 (KeyValueStorageType.BinaryFile and ChunkedBinaryFile), used by ledger/ledger.py:25-34 for the transactions.

    Simplifications.  A byte is a number.  What is in a file is a list of bytes; an iteration runs to its end before anything else is done to
    the file.  Keys in the mode in which the number of the record is the key are numbers, also where the code has their decimal digits.
    The text files (text_file_store.py) are not modelled. *)
From Coq Require Import List Arith Bool.
Import ListNotations.

Notation bytes := (list nat).

(** ** Bytes *)
Fixpoint starts (p s : bytes) : bool :=
  match p, s with [], _ => true | x :: p', y :: s' => (x =? y) && starts p' s' | _ :: _, [] => false end.
Fixpoint bytes_eqb (x y : bytes) : bool :=
  match x, y with [], [] => true | a :: x', b :: y' => (a =? b) && bytes_eqb x' y' | _, _ => false end.
(** x < y for bytes in Python *)
Fixpoint bytes_ltb (x y : bytes) : bool :=
  match x, y with _, [] => false | [], _ :: _ => true | a :: x', b :: y' => (a <? b) || ((a =? b) && bytes_ltb x' y') end.
(** [s.split(sep)] for a separator that is not empty: the occurrences from the left that do not overlap; [skip]: the bytes of an
    occurrence still to be passed over; [cur]: the piece so far, last byte first *)
Fixpoint split_go (sep : bytes) (skip : nat) (cur : bytes) (s : bytes) : list bytes :=
  match s with
  | [] => [rev cur]
  | c :: s' =>
      match skip with
      | S k => split_go sep k cur s'
      | 0 => if starts sep (c :: s') then rev cur :: split_go sep (length sep - 1) [] s' else split_go sep 0 (c :: cur) s'
      end
  end.
Definition split (sep s : bytes) : list bytes := split_go sep 0 [] s.
(** [s.split(sep, 1)] when there are two pieces *)
Fixpoint split1_go (sep cur s : bytes) : option (bytes * bytes) :=
  match s with
  | [] => None
  | c :: s' => if starts sep (c :: s') then Some (rev cur, skipn (length sep) (c :: s')) else split1_go sep (c :: cur) s'
  end.
Definition split1 (sep s : bytes) : option (bytes * bytes) := split1_go sep [] s.

(** ** One file *)
(** binary_file_store.py:62-69: [buf] is 4096; [fuel] bounds the number of reads *)
Fixpoint file_chunks (buf fuel : nat) (f : bytes) : list bytes :=
  match fuel with
  | 0 => []
  | S n => firstn buf f :: (if length f <? buf then [] else file_chunks buf n (skipn buf f))
  end.
(** binary_file_store.py:79: [buffer[-len(last):]]; for an empty [last] this is [buffer[0:]] *)
Definition keep (buffer lst : bytes) : bytes :=
  match lst with [] => buffer | _ => skipn (length buffer - length lst) buffer end.
(** binary_file_store.py:71-81; [lst] is [lines[-1]] *)
Fixpoint lines_go (sep buffer lst : bytes) (chunks : list bytes) : list bytes :=
  match chunks with
  | [] => match lst with [] => [] | _ => [lst] end
  | c :: cs =>
      let b := buffer ++ c in
      let ls := split sep b in
      removelast ls ++ lines_go sep (keep b (last ls [])) (last ls []) cs
  end.
Definition lines (buf : nat) (sep f : bytes) : list bytes := lines_go sep [] [] (file_chunks buf (S (length f)) f).

Record cfg := { line_sep : bytes; delim : bytes; line_no : bool (* isLineNoKey *); content_hash : bool (* storeContentHash *); buf : nat }.
(** kv_store_single_file.py:27-57, binary_file_store.py:46-51: what is written, and whether the call comes to its end.  The file is open for
    bytes and the hash is a string: writing it raises TypeError.  What the hash is does not matter. *)
Definition put (c : cfg) (f : bytes) (k v : bytes) : bytes * bool :=
  let f1 := if line_no c then f else f ++ k ++ delim c in
  let f2 := f1 ++ v in
  if content_hash c then (f2 ++ delim c, false) else (f2 ++ line_sep c, true).
Definition record_of (c : cfg) (k v : bytes) : bytes := (if line_no c then v else k ++ delim c ++ v) ++ line_sep c.

(** what an iteration gives to its caller, and how it ends *)
Inductive ending := Complete | Error.
Definition cons_fst {A} (x : A) (r : list A * ending) : list A * ending := (x :: fst r, snd r).
(** kv_store_single_file.py:72-91 in the mode with keys; [None]: no delimiter in the line (ValueError) *)
Definition parse (c : cfg) (l : bytes) : option (bytes * bytes) := split1 (delim c) l.
(** [not prefix or k.startswith(prefix)] *)
Definition prefix_ok (p : option bytes) (k : bytes) : bool := match p with None => true | Some p => starts p k end.
(** kv_store_file.py:133-145, the mode with keys: a line of another prefix is parsed to None, which is no pair (TypeError) *)
Fixpoint iter_keys (c : cfg) (start stop prefix : option bytes) (ls : list bytes) : list (bytes * bytes) * ending :=
  match ls with
  | [] => ([], Complete)
  | l :: ls' =>
      match parse c l with
      | None => ([], Error)
      | Some (k, v) =>
          if prefix_ok prefix k then
            if match stop with Some e => bytes_ltb e k | None => false end then ([], Complete)
            else
              let r := iter_keys c start stop prefix ls' in
              if match start with Some b => bytes_ltb k b | None => false end then r else cons_fst (k, v) r
          else ([], Error)
      end
  end.
(** kv_store_file.py:78-88, 106-110 with 133-145; a range is refused in this mode *)
Definition truthy (x : option bytes) : bool := match x with None | Some [] => false | _ => true end.
Definition iterate_keys (c : cfg) (f : bytes) (start stop prefix : option bytes) : list (bytes * bytes) * ending :=
  if truthy start && truthy stop then ([], Error) else iter_keys c start stop prefix (lines (buf c) (line_sep c) f).
(** kv_store_file.py:122-132, the mode with numbers, without prefix *)
Fixpoint iter_nos (start stop : option nat) (i : nat) (ls : list bytes) : list (nat * bytes) :=
  match ls with
  | [] => []
  | l :: ls' =>
      if match stop with Some e => e <? i | None => false end then []
      else (if match start with Some b => b <=? i | None => true end then [(i, l)] else []) ++ iter_nos start stop (S i) ls'
  end.
Definition iterate_nos (c : cfg) (f : bytes) (start stop : option nat) : list (nat * bytes) * ending :=
  match start, stop with
  | Some (S b), Some (S e) => if S e <? S b then ([], Error) else (iter_nos start stop 1 (lines (buf c) (line_sep c) f), Complete)
  | _, _ => (iter_nos start stop 1 (lines (buf c) (line_sep c) f), Complete)
  end.
(** kv_store_file.py:62-70: the last of the key; [None]: KeyError, or the error of the iteration *)
Definition last_of {K V} (eqb : K -> K -> bool) (k : K) (l : list (K * V)) : option V :=
  fold_left (fun acc x => if eqb (fst x) k then Some (snd x) else acc) l None.
Definition get_key (c : cfg) (f : bytes) (k : bytes) : option bytes :=
  match iterate_keys c f None None None with (l, Complete) => last_of bytes_eqb k l | (_, Error) => None end.
Definition get_no (c : cfg) (f : bytes) (k : nat) : option bytes := last_of Nat.eqb k (fst (iterate_nos c f None None)).

(** Histories of a file: records are put; a crash leaves the first [n] bytes of what was to be written; opening again adds nothing
    (binary_file_store.py:83-84); [Reset] (kv_store_single_file.py:66-70) empties the file. *)
Inductive op := Put (k v : bytes) | Crash (k v : bytes) (n : nat) | Reset.
Definition step (c : cfg) (f : bytes) (o : op) : bytes :=
  match o with
  | Put k v => fst (put c f k v)
  | Crash k v n => f ++ firstn n (record_of c k v)
  | Reset => []
  end.
Definition run (c : cfg) (os : list op) : bytes := fold_left (step c) os [].

(** ** A directory of files *)
(** A file of the directory ([BinarySerializerBasedFileStore], binary_serializer_based_file_store.py:22-27) is the list of its records: the
    serializer (msgpack) tells where a record ends and is not modelled.  The directory is the files with their numbers, in the order of the
    numbers (chunked_file_store.py:215-226). *)
Section Chunked.
  Context {V : Type}.
  Variable size_of : nat.      (* chunkSize *)

  Record dir := { files : list (nat * list V); current : nat (* currentChunkIndex *); item : nat (* itemNum *) }.
  Definition with_files x (d : dir) : dir := {| files := x; current := current d; item := item d |}.
  Fixpoint content (i : nat) (fs : list (nat * list V)) : list V :=
    match fs with [] => [] | (j, l) :: fs' => if j =? i then l else content i fs' end.
  (** opening a file that is not there creates it, binary_file_store.py:43-44 *)
  Fixpoint create (i : nat) (fs : list (nat * list V)) : list (nat * list V) :=
    match fs with
    | [] => [(i, [])]
    | (j, l) :: fs' => if i <? j then (i, []) :: fs else if i =? j then fs else (j, l) :: create i fs'
    end.
  Fixpoint append (i : nat) (v : V) (fs : list (nat * list V)) : list (nat * list V) :=
    match fs with [] => [] | (j, l) :: fs' => if j =? i then (j, l ++ [v]) :: fs' else (j, l) :: append i v fs' end.
  (** chunked_file_store.py:97-105 *)
  Definition latest (fs : list (nat * list V)) : nat := match fs with [] => 1 | _ => fst (last fs (1, [])) end.
  (** chunked_file_store.py:116-131 *)
  Definition use (i : nat) (d : dir) : dir :=
    let fs := create i (files d) in {| files := fs; current := i; item := S (length (content i fs)) |}.
  (** chunked_file_store.py:83-95 *)
  Definition reopen (d : dir) : dir := use (latest (files d)) d.
  Definition fresh : dir := reopen {| files := []; current := 0; item := 0 |}.
  (** chunked_file_store.py:144-158 *)
  Definition location (k : nat) : nat * nat :=
    match k with
    | 0 => (1, 0)
    | _ => match k mod size_of with 0 => (k - size_of + 1, size_of) | r => (k - r + 1, r) end
    end.
  (** chunked_file_store.py:160-165 and 107-114 *)
  Definition cput (v : V) (d : dir) : dir :=
    let d1 := if size_of <? item d then let d' := use (current d + size_of) d in {| files := files d'; current := current d'; item := 1 |} else d in
    {| files := append (current d1) v (files d1); current := current d1; item := S (item d1) |}.
  (** a record of one file by its number, kv_store_file.py:62-70 *)
  Definition nth_record (n : nat) (l : list V) : option V := match n with 0 => None | S i => nth_error l i end.
  (** chunked_file_store.py:167-177 *)
  Definition cget (k : nat) (d : dir) : dir * option V :=
    let fs := create (fst (location k)) (files d) in (with_files fs d, nth_record (snd (location k)) (content (fst (location k)) fs)).
  (** chunked_file_store.py:291-305 *)
  Definition csize (d : dir) : nat :=
    match files d with [] => 0 | fs => (length fs - 1) * size_of + length (snd (last fs (1, []))) end.
  (** chunked_file_store.py:179-186 *)
  Definition creset (d : dir) : dir := fresh.
  (** chunked_file_store.py:191-201 with kv_store_file.py:122-132 *)
  Definition call (d : dir) : list (nat * V) := combine (seq 1 (length (concat (map snd (files d))))) (concat (map snd (files d))).
  (** the records of one file with numbers from [b] to [e], kv_store_file.py:122-132 *)
  Definition part (b e : option nat) (l : list V) : list (nat * V) :=
    filter (fun x => match b with Some b => b <=? fst x | None => true end && match e with Some e => fst x <=? e | None => true end)
      (combine (seq 1 (length l)) l).
  (** chunked_file_store.py:273-285: the files from [i] on, [n] of them at most *)
  Fixpoint walk (n i first lst b e : nat) (fs : list (nat * list V)) : list (nat * list V) * list (nat * V) :=
    match n with
    | 0 => (fs, [])
    | S n' =>
        if lst <? i then (fs, [])
        else
          let fs1 := create i fs in
          let l := content i fs1 in
          let out := map (fun x => (i + fst x - 1, snd x))
                       (if i =? first then part (Some b) None l else if i =? lst then part None (Some e) l else part (Some 1) (Some size_of) l) in
          let r := walk n' (i + size_of) first lst b e fs1 in
          (fst r, out ++ snd r)
    end.
  (** chunked_file_store.py:228-245 and 247-285: [iterator(start, end)] for records that are not falsy; the third component: an error at the end *)
  Definition valid_range (b e : option nat) : bool := match b, e with Some (S b), Some (S e) => b <=? e | _, _ => true end.
  Definition crange (b e : option nat) (d : dir) : dir * list (nat * V) * ending :=
    match b, e with
    | None, None | Some 0, None => (d, call d, Complete)
    | None, Some 0 | Some 0, Some 0 => (d, [], Complete)
    | _, _ =>
        if negb (valid_range b e) then (d, [], Error)
        else if csize d =? 0 then (d, [], Complete)
        else
          let b' := match b with Some b => b | None => 1 end in
          let e' := match e with Some e => e | None => csize d end in
          if match b, e with Some (S b), Some (S e) => b =? e | _, _ => false end then
            match cget b' d with (d', Some v) => (d', [(b', v)], Complete) | (d', None) => (d', [], Error) end
          else
            let (first, bo) := location b' in
            let (lst, eo) := location e' in
            if first =? lst then
              if eo <? bo then (d, [], Error)
              else
                let fs := create first (files d) in
                (with_files fs d, combine (seq b' (S e' - b')) (map snd (part (Some bo) (Some eo) (content first fs))), Complete)
            else let (fs, out) := walk (S lst) first first lst bo eo (files d) in (with_files fs d, out, Complete)
    end.

  Inductive cop := CPut (v : V) | CGet (k : nat) | CRange (b e : option nat) | CReopen | CReset.
  Definition cstep (d : dir) (o : cop) : dir :=
    match o with
    | CPut v => cput v d
    | CGet k => fst (cget k d)
    | CRange b e => fst (fst (crange b e d))
    | CReopen => reopen d
    | CReset => creset d
    end.
  Definition crun (os : list cop) : dir := fold_left cstep os fresh.
End Chunked.
Arguments dir : clear implicits.
Arguments cop : clear implicits.
