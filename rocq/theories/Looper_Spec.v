(** What is asked of the loop (C106). *)
From Coq Require Import List Arith Bool.
From Verif Require Import Looper_Model.
Import ListNotations.

(** who was given a turn, in order *)
Fixpoint turns (e : list event) : list nat :=
  match e with [] => [] | Prodded n :: q => n :: turns q | _ :: q => turns q end.
(** nobody has a turn before being started *)
Definition started_first (e : list event) : Prop := forall a n b, e = a ++ Prodded n :: b -> In (Started n) a.
(** in its turn no prodable takes one away *)
Definition no_removal (react : nat -> list event -> option (nat * list act)) : Prop :=
  forall n e c l m, react n e = Some (c, l) -> ~ In (ARemove m) l.
(** in its turn no prodable raises or changes the list *)
Definition steady (react : nat -> list event -> option (nat * list act)) : Prop :=
  forall n e, exists c l, react n e = Some (c, l) /\ forall a, In a l -> a = ASignal.
