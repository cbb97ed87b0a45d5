(** Model of the limiter of actions: plenum/common/throttler.py:9-70.  Times are integers (floats in Python). *)
From Coq Require Import List ZArith Bool.
Import ListNotations.
Open Scope Z_scope.

(** 65-70 [_defaultDelayFunction] *)
Definition default_delay (window : Z) (_ : nat) : Z := window.

Section Throttler.
Variable window : Z.
(** 23: the delay function in use *)
Variable delay : nat -> Z.

(** 61-63 [_trimActionsLog]; the log has the oldest action first *)
Fixpoint trim (now : Z) (log : list Z) : list Z :=
  match log with
  | [] => []
  | t :: q => if now - t >? window then trim now q else log
  end.
(** 27-59 [acquire]: [None]: granted (True, 0.0); [Some w]: refused (False, w); and the log after it *)
Definition acquire (log : list Z) (now : Z) : option Z * list Z :=
  let log := trim now log in
  match log with
  | [] => (None, [now])
  | _ =>
      let wait := delay (length log) in
      let passed := now - last log 0 in
      if wait <? passed then (None, log ++ [now]) else (Some (wait - passed), log)
  end.
(** the answers to a history of calls, by the times they are made at *)
Fixpoint calls (log : list Z) (nows : list Z) : list (Z * option Z) :=
  match nows with
  | [] => []
  | now :: q => let (a, log') := acquire log now in (now, a) :: calls log' q
  end.
(** the log after them *)
Definition log_after (log : list Z) (nows : list Z) : list Z := fold_left (fun l now => snd (acquire l now)) nows log.
End Throttler.
