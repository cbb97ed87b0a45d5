(** What is claimed of recording and playing back (C88). *)
From Coq Require Import List Arith ZArith Bool.
From Verif Require Import Recorder_Model.
Import ListNotations.

(** the JSON serializer: reading gives back what was written; the text is not empty and ASCII *)
Definition json_ok (dumps : list val -> bytes) (loads : bytes -> option (list val)) : Prop :=
  (forall l, loads (dumps l) = Some l) /\ (forall l, dumps l <> []) /\ (forall l x, In x (dumps l) -> x < 128).
(** the events at time [k], oldest first *)
Definition at_time (k : nat) (evs : list (nat * val)) : list val := map snd (filter (fun e => fst e =? k) evs).
(** the clock does not go back *)
Fixpoint in_order (evs : list (nat * val)) : Prop :=
  match evs with [] => True | e :: r => (forall e', In e' r -> fst e <= fst e') /\ in_order r end.
Fixpoint increasing {V} (s : list (nat * V)) : Prop :=
  match s with [] => True | e :: r => (forall e', In e' r -> fst e < fst e') /\ increasing r end.
(** the entries delivered, with their times *)
Definition delivered {P} (out : list (Z * @got P)) : list (nat * P) :=
  flat_map (fun x => match snd x with Got k v => [(k, v)] | _ => [] end) out.
(** what a node has received, from its events *)
Definition node_inputs (evs : list (nat * val)) : list input :=
  flat_map (fun e => match snd e with Incoming m f => [FromNode m f] | Disconn ns => [Lost ns] | Outgoing _ _ => [] end) evs.
Definition client_inputs (evs : list (nat * val)) : list input :=
  flat_map (fun e => match snd e with Incoming m f => [FromClient m f] | _ => [] end) evs.
Definition is_client (i : input) : bool := match i with FromClient _ _ => true | _ => false end.
(** what has not been returned yet *)
Definition left (p : player) : store bytes := match held p with Some e => [e] | None => [] end ++ rest p.
