(** What is asked of the limiter (C107). *)
From Coq Require Import List ZArith Bool Sorted.
Import ListNotations.
Open Scope Z_scope.

(** the times of the granted calls, oldest first *)
Fixpoint granted (l : list (Z * option Z)) : list Z :=
  match l with [] => [] | (t, None) :: q => t :: granted q | (_, Some _) :: q => granted q end.
(** the granted ones of the last [window] before [now] *)
Definition recent (window now : Z) (g : list Z) : list Z := filter (fun t => now - t <=? window) g.
(** the answer by the history of granted calls: granted if none is recent, or the last is longer ago than the delay for their
    number; otherwise the rest of that delay *)
Definition answer (window : Z) (delay : nat -> Z) (g : list Z) (now : Z) : option Z :=
  match recent window now g with
  | [] => None
  | r => if delay (length r) <? now - last r 0 then None else Some (delay (length r) - (now - last r 0))
  end.
(** a clock that does not go back *)
Definition clock (nows : list Z) : Prop := StronglySorted Z.le nows.
