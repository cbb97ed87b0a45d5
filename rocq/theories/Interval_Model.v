(** Model of IntervalList and OrderedTracker (plenum/server/replica_helper.py:73-153). *)
From Coq Require Import List ZArith Bool.
Import ListNotations.
Local Open Scope Z_scope.

(** replica_helper.py:74-75: a list of two-element lists [lo, hi]. *)
Definition interval := (Z * Z)%type.
Definition ilist := list interval.

(** replica_helper.py:77-78 [__len__] *)
Definition il_len (l : ilist) : Z := fold_right (fun i acc => (snd i - fst i + 1) + acc) 0 l.

(** replica_helper.py:85-86 [__contains__] *)
Definition il_contains (item : Z) (l : ilist) : bool :=
  existsb (fun i => (fst i <=? item) && (item <=? snd i)) l.

(** replica_helper.py:80-83 [__eq__] between two IntervalLists: list equality *)
Fixpoint il_eqb (a b : ilist) : bool :=
  match a, b with
  | [], [] => true
  | x :: a', y :: b' => (fst x =? fst y) && (snd x =? snd y) && il_eqb a' b'
  | _, _ => false
  end.

(** replica_helper.py:105-128: the loop over neighbouring pairs and the code after it; [prev]
    is the current left interval and [rest] the intervals after it.
    Simplification: [remove(next)] and [index(next)] find the first interval equal to [next];
    here the position of [next] itself is used. *)
Fixpoint add_loop (item : Z) (prev : interval) (rest : ilist) : ilist :=
  match rest with
  | [] =>
      if item =? snd prev + 1 then [(fst prev, snd prev + 1)]
      else [prev; (item, item)]
  | next :: tl =>
      if item =? snd prev + 1 then
        let hi := snd prev + 1 in
        if hi =? fst next - 1 then (fst prev, snd next) :: tl
        else (fst prev, hi) :: rest
      else if (snd prev + 1 <? item) && (item <? fst next - 1) then prev :: (item, item) :: rest
      else if item =? fst next - 1 then prev :: (fst next - 1, snd next) :: tl
      else if (fst next <=? item) && (item <=? snd next) then prev :: rest
      else prev :: add_loop item next tl
  end.

(** replica_helper.py:88-128 [add] *)
Definition il_add (item : Z) (l : ilist) : ilist :=
  match l with
  | [] => [(item, item)]
  | first :: rest =>
      if item <? fst first - 1 then (item, item) :: l
      else if item =? fst first - 1 then (fst first - 1, snd first) :: rest
      else if (fst first <=? item) && (item <=? snd first) then l
      else add_loop item first rest
  end.

(** replica_helper.py:132-133: a defaultdict from view numbers to IntervalLists, as a list of
    (view, intervals) pairs in insertion order. *)
Definition tracker := list (Z * ilist).

Fixpoint tr_find (v : Z) (t : tracker) : option ilist :=
  match t with
  | [] => None
  | (w, l) :: t' => if w =? v then Some l else tr_find v t'
  end.
Fixpoint tr_put (v : Z) (l : ilist) (t : tracker) : tracker :=
  match t with
  | [] => [(v, l)]
  | (w, l') :: t' => if w =? v then (w, l) :: t' else (w, l') :: tr_put v l t'
  end.
(** [self._batches[view_no]]: a missing view is entered with an empty IntervalList. *)
Definition tr_get (v : Z) (t : tracker) : ilist * tracker :=
  match tr_find v t with Some l => (l, t) | None => ([], tr_put v [] t) end.

(** replica_helper.py:135-136 [__len__] *)
Definition tr_len (t : tracker) : Z := fold_right (fun p acc => il_len (snd p) + acc) 0 t.
(** replica_helper.py:143-145 [__contains__]: answer and the tracker afterwards *)
Definition tr_contains (v item : Z) (t : tracker) : bool * tracker :=
  let (l, t') := tr_get v t in (il_contains item l, t').
(** replica_helper.py:147-148 [add] *)
Definition tr_add (v item : Z) (t : tracker) : tracker :=
  let (l, t') := tr_get v t in tr_put v (il_add item l) t'.
(** replica_helper.py:150-153 [clear_below_view] *)
Definition tr_clear_below (v : Z) (t : tracker) : tracker := filter (fun p => negb (fst p <? v)) t.
(** replica_helper.py:138-141 [__eq__]: equality of dicts *)
Definition tr_eqb (a b : tracker) : bool :=
  Nat.eqb (length a) (length b) &&
  forallb (fun p => match tr_find (fst p) b with Some l => il_eqb (snd p) l | None => false end) a.
