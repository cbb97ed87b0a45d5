(** C102: how a limited service for clients is meant to behave; independent of events and counters. *)
From Coq Require Import List Arith ZArith Bool.
From Verif Require Import Base ClientLimit_Model.
Import ListNotations.

(** The clients connected, the earliest time of the next restart, the restarts so far *)
Record sstate := mkS { s_clients : nat; s_due : Z; s_restarts : list Z }.

Definition s_client (n : nat) (c : coming) : nat :=
  match c with Comes => n + 1 | Goes => n - 1 | Noise => n end.

(** At a service with too many clients the stack is restarted, if it is due: all clients are cut off, and those that
    come back meanwhile are there afterwards. *)
Definition s_step (cfg : config) (s : sstate) (o : op) : sstate :=
  match o with
  | OClient c => mkS (s_client (s_clients s) c) (s_due s) (s_restarts s)
  | OService now after deviation during =>
    if restart_enabled cfg && (max_clients cfg <=? s_clients s) && (s_due s <? now)%Z
    then mkS (fold_left s_client during 0) (after + min_timeout cfg + deviation)%Z (s_restarts s ++ [now])
    else s
  | OStop | OStart => s
  end.
Definition s_run (cfg : config) (now deviation : Z) (ops : list op) : sstate :=
  fold_left (s_step cfg) ops (mkS 0 (now + min_timeout cfg + deviation)%Z []).

(** Histories in which the stack is not stopped and started from outside *)
Definition undisturbed (ops : list op) : Prop := Forall (fun o => match o with OStop | OStart => False | _ => True end) ops.
(** The random deviations are within their range *)
Definition deviations (max : Z) (ops : list op) : Prop :=
  Forall (fun o => match o with OService _ _ d _ => (0 <= d <= max)%Z | _ => True end) ops.
Definition services (ops : list op) : nat := length (filter (fun o => match o with OService _ _ _ _ => true | _ => false end) ops).
