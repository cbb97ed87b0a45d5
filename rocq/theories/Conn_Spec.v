(** What it means to keep in touch, apart from how it is done. *)
From Coq Require Import List Arith.
Import ListNotations.
From Verif Require Import Dict Conn_Model.

(** The events of a socket end with the loss of the connection: after it nothing tells of a connection made or begun. *)
Definition ends_lost (evs : list ev) : Prop :=
  exists pre e post, evs = pre ++ e :: post /\ (e = Disconnected \/ e = Closed) /\ forall x, In x post -> x <> Connected /\ x <> Delayed.

(** The pool ledger gives no address to two nodes (C57), and only nodes of the pool move, change keys or leave. *)
Definition pool_step (s : state) (o : op) : Prop :=
  match o with
  | Join n a _ => get n (registry s) = None /\ forall m b, get m (registry s) = Some b -> b <> a
  | Move n a => (exists b, get n (registry s) = Some b) /\ forall m b, m <> n -> get m (registry s) = Some b -> b <> a
  | Rekey n _ | Leave n => exists b, get n (registry s) = Some b
  | _ => True
  end.
Definition pool_init (reg : dict addr) : Prop :=
  NoDup (map fst reg) /\ forall m n a, get m reg = Some a -> get n reg = Some a -> m = n.
Section Runs.
  Variables (self : nat) (local : nat -> bool) (retry_connect retry_socket : bool) (max_retry timeout : nat).
  Notation step := (step self local retry_connect retry_socket max_retry timeout).
  Fixpoint pool_run (s : state) (os : list op) : Prop :=
    match os with
    | [] => True
    | o :: os' => pool_step s o /\ match step s o with None => True | Some s' => pool_run s' os' end
    end.
End Runs.

(** Who is connected for somebody who only hears the reports. *)
Definition replay (rs : list (list nat * list nat)) : list nat := fold_left (fun c r => minus c (snd r) ++ fst r) rs [].

(** A remote is where its node is, with its node's key, and has an open socket. *)
Definition in_place (s : state) (n : nat) (r : remote) : Prop :=
  get n (registry s) = Some (r_ha r) /\ get n (keys s) = Some (r_key r) /\ exists k, r_sock r = Some k /\ In k (open s).

(** A turn of the event loop, a time-out after the last. *)
Definition turn (timeout : nat) : list op := [Tick timeout; Check; Maintain false].
Fixpoint turns (timeout j : nat) : list op := match j with 0 => [] | S j' => turn timeout ++ turns timeout j' end.
(** Nothing is heard from other nodes, and the pool does not change. *)
Definition idle (o : op) : Prop := match o with Check | Maintain _ | Event _ _ | Tick _ => True | _ => False end.

(** Messages, events and time, but no look at the connections *)
Definition unseen (o : op) : Prop := match o with Received _ _ | Event _ _ | Tick _ => True | _ => False end.
(** What the socket of a node told *)
Definition told (n : nat) (os : list op) : list ev :=
  flat_map (fun o => match o with Event m e => if m =? n then [e] else [] | _ => [] end) os.
