(** Model of recording what a node receives and sends, and of playing it back: plenum/recorder/recorder.py,
    plenum/recorder/combined_recorder.py, the loop of plenum/recorder/replayer.py:119-178, and the file of start times.
    Times are whole ticks (the code compares floats when playing).  Not modelled: patching the node that replays. *)
From Coq Require Import List Arith ZArith Bool.
Import ListNotations.

Notation bytes := (list nat).
(** recorder.py:64-74: what is written for one event; messages and names are numbers here *)
Inductive val := Incoming (m frm : nat) | Outgoing (m : nat) (to : list nat) | Disconn (names : list nat).

(** *** the store: kv_store_rocksdb_int_keys.py, keys in numerical order *)
Notation store V := (list (nat * V)).
Fixpoint get {V} (k : nat) (s : store V) : option V := match s with [] => None | (k', v) :: r => if k =? k' then Some v else get k r end.
Fixpoint put {V} (k : nat) (v : V) (s : store V) : store V :=
  match s with
  | [] => [(k, v)]
  | (k', v') :: r => if k <? k' then (k, v) :: s else if k =? k' then (k, v) :: r else (k', v') :: put k v r
  end.

(** JSON of a list of values: oracles *)
Section Json.
Variable dumps : list val -> bytes.
Variable loads : bytes -> option (list val).

(** recorder.py:46-54 [add_to_store]; [None]: the value that is there cannot be read *)
Definition add_to_store (s : store bytes) (k : nat) (v : val) : option (store bytes) :=
  match get k s with
  | None => Some (put k (dumps [v]) s)
  | Some b => match loads b with Some l => Some (put k (dumps (l ++ [v])) s) | None => None end
  end.
(** recorder.py:31-44: events with their times *)
Fixpoint record (s : store bytes) (evs : list (nat * val)) : option (store bytes) :=
  match evs with [] => Some s | (k, v) :: r => match add_to_store s k v with Some s' => record s' r | None => None end end.

(** *** recorder.py:76-111: playing; [last]: when the last one was returned, and its time *)
Record player := Player { rest : store bytes; held : option (nat * bytes); last : option (Z * nat); playing : bool }.
Definition start_playing (s : store bytes) : player := Player s None None true.
Section Parse.
Context {P : Type}.
Variable parse : bytes -> option P.
Inductive got := Nothing | Got (k : nat) (p : P) | Raised.
Definition deliver (p : player) (now : Z) (k : nat) (b : bytes) (r : store bytes) : player * got :=
  (Player r None (Some (now, k)) (playing p), match parse b with Some v => Got k v | None => Raised end).
Definition enough (now : Z) (k : nat) (l : Z * nat) : bool := (Z.of_nat k - Z.of_nat (snd l) <=? now - fst l)%Z.
(** recorder.py:82-108 [get_next]; [Got] carries the time for the statements, the code returns the values only *)
Definition get_next (p : player) (now : Z) : player * got :=
  match held p with
  | None => match rest p with
            | [] => (Player [] None (last p) false, Nothing)
            | (k, b) :: r => match last p with
                             | None => deliver p now k b r
                             | Some l => if enough now k l then deliver p now k b r
                                         else (Player r (Some (k, b)) (last p) (playing p), Nothing)
                             end
            end
  | Some (k, b) => match last p with
                   | Some l => if enough now k l then deliver p now k b (rest p) else (p, Nothing)
                   | None => (p, Raised)
                   end
  end.
(** calls of [get_next] at the times [nows] *)
Fixpoint play (p : player) (nows : list Z) : player * list (Z * got) :=
  match nows with [] => (p, []) | t :: r => let (p', g) := get_next p t in let (p'', gs) := play p' r in (p'', (t, g) :: gs) end.
End Parse.

(** recorder.py:113-134 *)
Definition is_incoming (v : val) : bool := match v with Incoming _ _ => true | _ => false end.
Definition is_disconn (v : val) : bool := match v with Disconn _ => true | _ => false end.

(** *** combined_recorder.py *)
Definition n_prefix : bytes := [226; 130].
Definition c_prefix : bytes := [160; 161].
Definition separator : bytes := [195; 40].
(** combined_recorder.py:22-34 *)
Definition combine_n (s n : store bytes) : store bytes := fold_left (fun s kv => put (fst kv) (n_prefix ++ snd kv ++ separator) s) n s.
Definition combine_c (s c : store bytes) : store bytes :=
  fold_left (fun s kv => let existing := match get (fst kv) s with Some b => b | None => n_prefix ++ separator end in
                         put (fst kv) (existing ++ c_prefix ++ snd kv) s) c s.
Definition combine (s n c : store bytes) : store bytes := combine_c (combine_n s n) c.
(** [bytes.split(separator)] *)
Fixpoint split_sep (b : bytes) : list bytes :=
  match b with
  | [] => [[]]
  | x :: r => match r with
              | y :: r' => if (x =? 195) && (y =? 40) then [] :: split_sep r'
                           else match split_sep r with h :: t => (x :: h) :: t | [] => [[x]] end
              | [] => [[x]]
              end
  end.
(** [bytes.lstrip]: any of the given bytes *)
Fixpoint lstrip (cs b : bytes) : bytes := match b with [] => [] | x :: r => if existsb (Nat.eqb x) cs then lstrip cs r else b end.
(** [decode] and [json.loads]: a continuation byte after an ASCII one is not UTF-8 *)
Fixpoint not_utf8 (b : bytes) : bool :=
  match b with [] => false | x :: r => match r with y :: _ => ((x <? 128) && (128 <=? y) && (y <? 192)) || not_utf8 r | [] => false end end.
Definition get_parsed (b : bytes) : option (list val) := if not_utf8 b then None else loads b.
(** combined_recorder.py:42-54 [get_parsed] *)
Definition parse_part (b : bytes) : option (list val) := match b with [] => Some [] | _ => get_parsed b end.
Definition get_parsed_both (b : bytes) : option (list val * list val) :=
  match split_sep b with
  | [n; c] => match parse_part (lstrip n_prefix n), parse_part (lstrip c_prefix c) with Some x, Some y => Some (x, y) | _, _ => None end
  | _ => None
  end.
End Json.

(** replayer.py:160-176: what the node that replays is given of one entry, in order *)
Inductive input := FromNode (m frm : nat) | Lost (names : list nat) | FromClient (m frm : nat).
Definition feed (nc : list val * list val) : list input :=
  flat_map (fun v => match v with Incoming m f => [FromNode m f] | Disconn ns => [Lost ns] | Outgoing _ _ => [] end) (fst nc) ++
  flat_map (fun v => match v with Incoming m f => [FromClient m f] | _ => [] end) (snd nc).

(** *** recorder.py:142-174: the file of start and stop times; one list per run *)
Notation runs := (option (list (list nat))).
Definition last_run (l : list (list nat)) : option (list nat) := nth_error l (length l - 1).
Definition add_start_time (f : runs) (t : nat) : option runs :=
  match f with
  | None => Some (Some [[t]])
  | Some l => match last_run l with Some r => if length r =? 2 then Some (Some (l ++ [[t]])) else None | None => None end
  end.
Definition add_stop_time (f : runs) (t : nat) : option runs :=
  match f with
  | None => None
  | Some l => match last_run l with Some r => if length r =? 1 then Some (Some (removelast l ++ [r ++ [t]])) else None | None => None end
  end.
(** node.py:361, 997; a crash writes nothing.  A start that raises is no start *)
Inductive life := Start (t : nat) | Stop (t : nat) | Crash.
Fixpoint live (f : runs) (ls : list life) : runs * bool :=
  match ls with
  | [] => (f, true)
  | Crash :: r => live f r
  | Start t :: r => match add_start_time f t with Some f' => live f' r | None => (f, false) end
  | Stop t :: r => match add_stop_time f t with Some f' => live f' r | None => (f, false) end
  end.
(** replayer.py:122-123: how long the first run lasts, read before anything is played *)
Definition first_run (l : list (list nat)) : option nat :=
  match l with (s :: e :: _) :: _ => Some (e - s) | _ => None end.
