(** Model of how a node empties the boxes of its replicas while its reactions fill them (Outbox_Model.v is about turns
    without such reactions): plenum/server/replicas.py:114-138 (get_output,
    take_ordereds_out_of_turn), plenum/server/node.py:1316-1344 (service_replicas_outbox), plenum/server/replica.py:534-549
    (inboxes), 598-619 (Ordered messages).  What the node does with a message is arbitrary: [proc] says, from all that
    happened, what it makes the replicas put into their boxes and whether it raises.  Simplified: no replica is added or
    removed meanwhile (get_output walks over a copy of the list, so one that is added is not visited); the quotient of
    limit and number of replicas is exact (a float in Python). *)
From Coq Require Import List Arith Bool.
Import ListNotations.

(** what happened: a message taken from the box of a replica; a message put into it *)
Inductive event := Out (i m : nat) | Put (i m : nat).
Definition boxes := nat -> list nat.
Definition upd (b : boxes) (i : nat) (l : list nat) : boxes := fun j => if i =? j then l else b j.
(** replica.outBox.append *)
Definition put (b : boxes) (p : nat * nat) : boxes := upd b (fst p) (b (fst p) ++ [snd p]).
Definition put_all (b : boxes) (ps : list (nat * nat)) : boxes := fold_left put ps b.
Definition put_event (p : nat * nat) : event := Put (fst p) (snd p).

(** [todo]: the replicas still to be visited, the first being visited; [num]: messages taken from it in this visit *)
Record state := State { box : boxes; todo : list nat; num : nat; log : list event; failed : bool }.

Section Proc.
Variable proc : list event -> nat -> nat -> list (nat * nat) * bool.
(** replicas.py:126-131, one turn of the inner loop with node.py:1323-1344; [per = None]: no limit.  The check
    [per_replica and num >= per_replica] comes after the message was processed; [per = Some 0] does not happen (122-125) *)
Definition step (per : option nat) (s : state) : state :=
  match todo s with
  | [] => s
  | i :: q =>
      match box s i with
      | [] => State (box s) q 0 (log s) (failed s)
      | m :: l =>
          let (ps, err) := proc (log s) i m in
          let b := put_all (upd (box s) i l) ps in
          let lg := log s ++ Out i m :: map put_event ps in
          if err then State b [] 0 lg true
          else match per with
               | Some p => if p <=? S (num s) then State b q 0 lg (failed s) else State b (todo s) (S (num s)) lg (failed s)
               | None => State b (todo s) (S (num s)) lg (failed s)
               end
      end
  end.
Fixpoint run (per : option nat) (n : nat) (s : state) : state := match n with 0 => s | S n => run per n (step per s) end.
End Proc.

(** Python's round of a quotient: to the nearest, to the even one in the middle *)
Definition round_div (a b : nat) : nat :=
  let q := a / b in let r := a mod b in
  if 2 * r <? b then q else if b <? 2 * r then S q else if Nat.even q then q else S q.
(** replicas.py:115-125: [None]: ZeroDivisionError *)
Definition per_replica (limit : option nat) (n : nat) : option (option nat) :=
  match limit with
  | None => Some None
  | Some l => if n =? 0 then None else let p := round_div l n in Some (Some (if p =? 0 then 1 else p))
  end.
(** replicas.py:126: the visit starts *)
Definition start (b : boxes) (ids : list nat) : state := State b ids 0 [] false.

(** replica.py:534-549 [_handle_external_messages]: the inbox of one replica, here as a visit to it alone; a limit that is
    missing or 0 is no limit.  The check comes before the message: with a limit above 0 this is the same *)
Definition inbox_limit (limit : option nat) : option nat := match limit with Some 0 | None => None | Some l => Some l end.

(** *** replica.py:598-619 [_remove_ordered_from_queue]; util.py:618-622 [compare_3PC_keys] *)
Inductive omsg := Ordered (view seq : nat) | Other (x : nat).
Definition selected (last : option (nat * nat)) (m : omsg) : bool :=
  match m with
  | Ordered _ p => match last with None => true | Some (_, q) => p <=? q end
  | Other _ => false
  end.
(** 604-609 *)
Fixpoint to_remove (last : option (nat * nat)) (i : nat) (l : list omsg) : list nat :=
  match l with [] => [] | m :: q => if selected last m then i :: to_remove last (S i) q else to_remove last (S i) q end.
Definition del_at (i : nat) (l : list omsg) : list omsg := firstn i l ++ skipn (S i) l.
(** 615-618; [outBox[i]] of a place that is not there would raise *)
Fixpoint take_out (is : list nat) (box removed : list omsg) : option (list omsg * list omsg) :=
  match is with
  | [] => Some (removed, box)
  | i :: q => match nth_error box i with Some m => take_out q (del_at i box) (m :: removed) | None => None end
  end.
(** (removed, outBox) *)
Definition remove_ordered (last : option (nat * nat)) (box : list omsg) : option (list omsg * list omsg) :=
  take_out (rev (to_remove last 0 box)) box [].
