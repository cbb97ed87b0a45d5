(** What is asked of the removal and restoration of backup instances, stated over what happens to a node. *)
From Coq Require Import List Arith Bool.
From Verif Require Import Base Dict Backup_Model.
Import ListNotations.

(** the instances a node has *)
Definition running (s : node) : list nat := map fst (reps s).
(** the replica of an instance (None: there is none) *)
Definition replica (i : nat) (s : node) : option rep := get i (reps s).

(** the events of a history, each with the node before it *)
Fixpoint trace (c : config) (s : node) (es : list event) : list (node * event) :=
  match es with [] => [] | e :: es => (s, e) :: trace c (step c s e) es end.

Definition count (i : nat) (l : list nat) : nat := length (filter (Nat.eqb i) l).

(** a scheduled check of instance [i] is due, and the time looked at is long ago *)
Definition due (i t : nat) (s : node) : bool := existsb (fun x => (snd x =? i) && (fst x <=? t)) (sched s).

(** who votes against instance [i] in an event: the sender of a message of this view that does not name
    the master and whose reason is one that a quorum decides on; and the node itself, when it finds that
    the instance is degraded or lost its primary and this is to be decided by a quorum.  A message that
    names the instance several times counts that often. *)
Definition by_quorum (c : config) (why : nat) : bool :=
  if why =? 39 then match on_disconnected c with Quorum => true | _ => false end
  else if why =? 40 then match on_degraded c with Quorum => true | _ => false end
  else true.
Definition voters (c : config) (i : nat) (x : node * event) : list nat :=
  match snd x with
  | EMsg m frm =>
      if (v_no m =? view (fst x)) && (count 0 (insts m) =? 0) && by_quorum c (reason m)
      then repeat frm (count i (insts m)) else []
  | EDegraded is _ =>
      match on_degraded c with
      | Quorum => if count 0 is =? 0 then repeat (me c) (count i is) else []
      | _ => []
      end
  | EFire j t _ =>
      match on_disconnected c with
      | Quorum => if due j t (fst x) && is_lost c j t (fst x) && (j =? i) && negb (i =? 0) then [me c] else []
      | _ => []
      end
  | _ => []
  end.
Definition all_voters (c : config) (i : nat) (s : node) (es : list event) : list nat :=
  flat_map (voters c i) (trace c s es).

(** the node drops instance [i] on its own finding *)
Definition drops (c : config) (i : nat) (x : node * event) : Prop :=
  match snd x with
  | EDegraded is _ => on_degraded c = Local /\ In i is
  | EFire j t _ => on_disconnected c = Local /\ due j t (fst x) = true /\ is_lost c j t (fst x) = true /\ j = i
  | _ => False
  end.

(** f + 1 different nodes voted, or the node itself f + 1 times *)
Definition enough (c : config) (f : nat) (l : list nat) : Prop :=
  f < length (nodup Nat.eq_dec l) \/ f < count (me c) l.

(** events that neither restore nor adjust the replicas *)
Definition plain (e : event) : Prop := match e with ERestore _ _ | EAdjust _ _ => False | _ => True end.
(** what a node finds degraded is a backup (C73), and only backups have their removal scheduled *)
Definition sane (e : event) : Prop := match e with EDegraded is _ => ~ In 0 is | _ => True end.
(** the events of the connection of the primary of [i], and the check of it *)
Definition about (i : nat) (e : event) : Prop :=
  match e with EDisc j _ | EConn j | EFire j _ _ => j = i | _ => False end.

(** what a node tells the others in an event: what it found itself, when a quorum is to decide on it *)
Definition tells (c : config) (s : node) (e : event) : list msg :=
  match e with
  | EDegraded is changing =>
      match on_degraded c, is, changing with
      | Quorum, [], false => []
      | Quorum, _, _ => [Msg (view s) is 40]
      | _, _, _ => []
      end
  | EFire i t _ =>
      match on_disconnected c with
      | Quorum => if due i t s && is_lost c i t s then [Msg (view s) [i] 39] else []
      | _ => []
      end
  | _ => []
  end.
