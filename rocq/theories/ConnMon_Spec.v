(** What is asked of the watch over the connection to the primary, stated over what happened.  Histories are
    written newest first. *)
From Coq Require Import List Arith Bool.
From Verif Require Import Base Dict ConnMon_Model.
Import ListNotations.

Definition time (e : event) : nat :=
  match e with Conn t _ | Disc t _ | Select t _ _ _ | NewPrimary t _ | Status t _ | Serve t _ _ _ => t end.
(** time does not go back, starting from [t0] *)
Fixpoint timely (t0 : nat) (h : list event) : Prop :=
  match h with
  | [] => True
  | e :: h => match h with [] => t0 <= time e | e' :: _ => time e' <= time e end /\ timely t0 h
  end.
(** no primary is selected within a vote *)
Definition calm (e : event) : Prop := match e with Serve _ _ _ (Some _) => False | _ => True end.

(** who is the primary *)
Fixpoint primary (h : list event) : option nat :=
  match h with
  | [] => None
  | Select _ p _ _ :: _ => Some p
  | NewPrimary _ p :: _ => p
  | _ :: h => primary h
  end.

(** a selected primary is there: it is the node itself, it is connected, or it is no validator (any more) *)
Definition there (c : config) (p : nat) (conns vals : list nat) : Prop := p = me c \/ In p conns \/ ~ In p vals.

(** an event by which the node finds its primary connected; disconnected *)
Definition ups (c : config) (h : list event) (e : event) : Prop :=
  match e with
  | Conn _ x => primary h = Some x
  | Select _ p conns vals => there c p conns vals
  | _ => False
  end.
Definition downs (c : config) (h : list event) (e : event) : Prop :=
  match e with
  | Disc _ x => primary h = Some x
  | Select _ p conns vals => ~ there c p conns vals
  | _ => False
  end.

(** the primary is not connected, as far as the node was told; so it is at the start *)
Inductive down (c : config) : list event -> Prop :=
  | down_start : down c []
  | down_event h e : downs c h e -> down c (e :: h)
  | down_still h e : down c h -> ~ ups c h e -> down c (e :: h).

(** the times from which on the node may vote: after the start, after every time it finds the primary
    disconnected, and after it woke up with the primary disconnected; until it finds the primary connected *)
Inductive deadline (c : config) (t0 : nat) : list event -> nat -> Prop :=
  | dl_start : deadline c t0 [] (t0 + initial c)
  | dl_event h e : downs c h e -> deadline c t0 (e :: h) (time e + tolerate c)
  | dl_woke h t : down c h -> primary h <> None -> deadline c t0 (Status t true :: h) (t + tolerate c)
  | dl_still h e d : deadline c t0 h d -> ~ ups c h e -> deadline c t0 (e :: h) d.

(** the node votes at time [u], since it last found the primary connected *)
Inductive voted (c : config) (t0 : nat) : list event -> nat -> Prop :=
  | voted_now h e u : In u (out (run c t0 (e :: h))) -> voted c t0 (e :: h) u
  | voted_before h e u : voted c t0 h u -> ~ ups c h e -> voted c t0 (e :: h) u.

(** since when the primary is disconnected *)
Inductive since (c : config) (t0 : nat) : list event -> nat -> Prop :=
  | since_start : since c t0 [] t0
  | since_event h e : downs c h e -> since c t0 (e :: h) (time e)
  | since_still h e d : since c t0 h d -> ~ ups c h e -> ~ downs c h e -> since c t0 (e :: h) d.
