(** Model of how a node tells observers of the batches that it commits, and of sending to chosen nodes:
    plenum/server/observer/observable.py, observable_sync_policy.py, observable_sync_policy_each_batch.py, plenum/server/router.py:92-105,
    plenum/server/node.py:1125-1157, 2703-2740, 2968-2992, 3100-3110.
    Names, remote ids and batches are numbers.  What happens to a message after it is put in the out boxes of remotes is in Batch_Model.v. *)
From Coq Require Import List Arith Bool.
Import ListNotations.

(** The out box holds, beside each message, a reference to the list of observers itself (observable_sync_policy_each_batch.py:30,
    observable.py:75-78), so what is sent goes to those who are in the list then. *)
Record nod := Nod { remotes : list (nat * nat) (** [nodestack.remotes]: id, name *); observers : list nat (** [_observers] *);
  inbox : list nat; outbox : list nat; sent : list (nat * list nat) (** a batch and the ids of the remotes it was sent to *) }.
Definition init : nod := Nod [] [] [] [] [].

(** [dict.__setitem__] *)
Fixpoint set (r n : nat) (l : list (nat * nat)) : list (nat * nat) :=
  match l with [] => [(r, n)] | (r', n') :: t => if r =? r' then (r, n) :: t else (r', n') :: set r n t end.
(** [list.remove] (observable_sync_policy.py:27-31) *)
Fixpoint remove1 (x : nat) (l : list nat) : list nat :=
  match l with [] => [] | y :: t => if x =? y then t else y :: remove1 x t end.
Definition mem (x : nat) (l : list nat) : bool := existsb (Nat.eqb x) l.
(** node.py:2987-2992 [sendToNodes] *)
Definition rids (rem : list (nat * nat)) (names : list nat) : list nat :=
  match names with [] => [] | _ :: _ => map fst (filter (fun e => mem (snd e) names) rem) end.
(** node.py:2968-2985 [send], batched.py:82-89: to those of [rids], or to all *)
Definition recipients (rem : list (nat * nat)) (names : list nat) : list nat :=
  match rids rem names with [] => map fst rem | rs => rs end.
(** node.py:1137-1157 [_service_observable_out_box]; a limit of 0 is none *)
Definition limited {A} (limit : nat) (l : list A) : list A := if limit =? 0 then l else firstn limit l.
Definition rest {A} (limit : nat) (l : list A) : list A := if limit =? 0 then [] else skipn limit l.
Definition service_out (s : nod) (limit : nat) : nod :=
  Nod (remotes s) (observers s) (inbox s) (rest limit (outbox s))
      (sent s ++ map (fun b => (b, recipients (remotes s) (observers s))) (limited limit (outbox s))).
(** observable_sync_policy_each_batch.py:21-30 [process_new_batch] *)
Definition process_new_batch (s : nod) (b : nat) : nod :=
  match observers s with [] => s | _ :: _ => Nod (remotes s) (observers s) (inbox s) (outbox s ++ [b]) (sent s) end.
(** observable.py:53-62 [serviceQueues] with router.py:92-105 [handleAll] *)
Definition service_in (s : nod) (limit : nat) : nod :=
  fold_left process_new_batch (limited limit (inbox s))
            (Nod (remotes s) (observers s) (rest limit (inbox s)) (outbox s) (sent s)).
(** node.py:1125-1135 [service_observable]: first what goes out *)
Definition service (s : nod) (ready : bool) (limit : nat) : nod :=
  if ready then service_in (service_out s limit) limit else s.

(** An observer is added (with the policy of each batch or another) or removed, a batch is committed ([known]: all its requests are still
    there, node.py:2713-2723), a remote comes or goes, the queues are served. *)
Inductive op := Add (x : nat) (each_batch : bool) | Remove (x : nat) | Commit (b : nat) (known : bool)
  | Connect (r n : nat) | Disconnect (r : nat) | Service (ready : bool) (limit : nat).
Definition step (s : nod) (o : op) : nod :=
  match o with
  | Add x e => if e then Nod (remotes s) (observers s ++ [x]) (inbox s) (outbox s) (sent s) else s
  | Remove x => Nod (remotes s) (remove1 x (observers s)) (inbox s) (outbox s) (sent s)
  | Commit b k => if k then Nod (remotes s) (observers s) (inbox s ++ [b]) (outbox s) (sent s) else s
  | Connect r n => Nod (set r n (remotes s)) (observers s) (inbox s) (outbox s) (sent s)
  | Disconnect r => Nod (filter (fun e => negb (fst e =? r)) (remotes s)) (observers s) (inbox s) (outbox s) (sent s)
  | Service ready limit => service s ready limit
  end.
Definition run (s : nod) (os : list op) : nod := fold_left step os s.
