(** What is claimed of messages for protocol instances (C92). *)
From Coq Require Import List Arith Bool.
From Verif Require Import Dict Route_Model.
Import ListNotations.

(** is a message meant for instance [i]?  Requests to change the view are for instance 0, messages that name none are for all *)
Definition meant_for (i : nat) (m : msg) : bool :=
  match m_kind m, m_inst m with Change, _ => i =? 0 | _, Some j => i =? j | _, None => true end.
(** three-phase messages are to be kept until their instance is made (and so are requests to change the view, before the pool is known) *)
Definition kept (m : msg) : bool := match m_kind m with Other => false | _ => true end.
(** a three-phase message names its instance (node_messages.py:118-214) *)
Definition well_formed (m : msg) : Prop := m_kind m = ThreePhase -> m_inst m <> None.
(** how many instances there are after a history of messages and changes of the pool *)
Fixpoint instances (n : nat) (os : list op) : nat := match os with [] => n | Pool r :: os => instances r os | _ :: os => instances n os end.
(** what instance [i] is to be told, once it is there: everything meant for it, and, of what came before it was made, what is
    to be kept; starting anew if it is removed *)
Fixpoint told (i n : nat) (sofar : list msg) (os : list op) : list msg :=
  match os with
  | [] => sofar
  | Recv m :: os => told i n (if meant_for i m && ((i <? n) || kept m) then sofar ++ [m] else sofar) os
  | Pool r :: os => told i r (if (i <? n) && (r <=? i) then [] else sofar) os
  | _ :: os => told i n sofar os
  end.
(** only messages and changes of the pool: no instance is found faulty *)
Definition fine (o : op) : Prop := match o with Recv m => well_formed m | Pool _ => True | _ => False end.
(** what is held for an instance to come *)
Definition waiting (i : nat) (s : node) : list msg := get_or i [] (future s).
