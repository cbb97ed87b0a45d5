(** What the replicas put, by the history alone, and what of it the node was handed. *)
From Coq Require Import List Arith Bool.
From Verif Require Import Outbox_Model.
Import ListNotations.

(** The messages that the replica of instance [i] put since it is there *)
Fixpoint puts (i : nat) (there : bool) (h : list op) : list msg :=
  match h with
  | [] => []
  | Add j :: r => puts i (there || (j =? i)) r
  | Put j m :: r => if (j =? i) && there then m :: puts i there r else puts i there r
  | _ :: r => puts i there r
  end.
(** Those that the node got, in this order *)
Definition handed (i : nat) (t : list entry) : list msg := map e_msg (filter (fun e => e_inst e =? i) t).
(** Those that wait *)
Fixpoint waiting (i : nat) (bs : list (nat * list msg)) : list msg :=
  match bs with [] => [] | (j, b) :: r => if j =? i then b else waiting i r end.
Definition not_ord (m : msg) : bool := negb (is_ord m).
(** The Ordereds of an instance that were processed *)
Definition is_processed (w : outcome) : bool := match w with Processed => true | _ => false end.
Definition processed (i : nat) (t : list entry) : list msg := map e_msg (filter (fun e => (e_inst e =? i) && is_processed (e_out e)) t).
(** Whether the node takes part *)
Fixpoint ready (b : bool) (h : list op) : bool :=
  match h with [] => b | Ready b' :: r => ready b' r | Catchup :: r => ready false r | _ :: r => ready b r end.
Definition hands_over (o : op) : bool := match o with Turn _ => true | Catchup => true | _ => false end.
Definition instances (s : node) : list nat := map fst (boxes s).
(** No exception waits *)
Definition is_exn (m : msg) : bool := match m with Exn _ => true | _ => false end.
Definition calm (s : node) : Prop := forall i, existsb is_exn (waiting i (boxes s)) = false.
(** Answers to the request [d], and how often it came *)
Definition answer_to (d : nat) (e : entry) : bool := match e with Entry _ (Rej d') (Answered _) => d' =? d | _ => false end.
Definition asks (d : nat) (o : op) : bool := match o with Client d' _ => d' =? d | _ => false end.
(** Nothing that concerns the sender of [d] *)
Definition quiet (d : nat) (o : op) : bool :=
  match o with Client d' _ => negb (d' =? d) | Done d' => negb (d' =? d) | Turn _ => false | _ => true end.
(** The kind of outcome each message has *)
Inductive fits : msg -> outcome -> Prop :=
| FWire x : fits (Wire x) Sent | FOrd v k : fits (Ord v k) Processed | FDrop v k : fits (Ord v k) Dropped
| FRej d c : fits (Rej d) (Answered c) | FNone d : fits (Rej d) Unanswered
| FSusp x : fits (Susp x) Blamed | FExn x : fits (Exn x) Raised | FOdd x : fits (Odd x) Logged.
