(** Model of the watch for suspicious spikes: plenum/server/notifier_plugin_manager.py:54-117 (sendMessageUponSuspiciousSpike) and
    137-146 (_sendMessage).  Numbers are rationals (floats in Python); the logarithm is a variable; the checks for missing
    keys (63-74) and the text of the message are left out. *)
From Coq Require Import List Arith Bool QArith.
Import ListNotations.
Open Scope Q_scope.

(** 69-83: the configuration of an event *)
Record config := Config { min_cnt : nat; bounds_coeff : Q; threshold : Q; weighted : bool; enabled : bool }.
(** 63, 85-89: [historicalData] *)
Record history := History { value : Q; cnt : nat }.

Section Spike.
(** 103: math.log(cnt, 10) *)
Variable lg : nat -> Q.
(** 86 *)
Definition alpha (c : config) : Q := 2 # Pos.of_succ_nat (min_cnt c).
(** 87-88 *)
Definition update (c : config) (h : history) (new : Q) : history :=
  History (value h * (1 - alpha c) + new * alpha c) (S (cnt h)).
(** 99-103: the coefficient in use after [n] measurements *)
Definition coeff (c : config) (n : nat) : Q :=
  if weighted c && (10 <? n)%nat then bounds_coeff c / lg n else bounds_coeff c.
(** 76-117: the history afterwards and whether a message is sent; [on]: the argument [enabled] *)
Definition check (c : config) (on : bool) (h : history) (new : Q) : history * bool :=
  if negb (on && enabled c) then (h, false)
  else
    let h' := update c h new in
    if (cnt h' <=? min_cnt c)%nat then (h', false)
    else if negb (Qle_bool (threshold c) (value h)) then (h', false)
    else
      let b := coeff c (cnt h') in
      if Qle_bool (value h / b) new && Qle_bool new (value h * b) then (h', false) else (h', true).
(** a series of measurements: the history after it, and the answers, oldest first *)
Fixpoint checks (c : config) (on : bool) (h : history) (l : list Q) : history * list bool :=
  match l with
  | [] => (h, [])
  | x :: q => let (h1, a) := check c on h x in let (h2, r) := checks c on h1 q in (h2, a :: r)
  end.
End Spike.

(** 137-146 [_sendMessage]: [true]: the plugin takes the message, [false]: it raises; who was called, and the pair returned *)
Fixpoint send (plugins : list (nat * bool)) (called : list nat) (i : nat) : list nat * nat :=
  match plugins with
  | [] => (called, i)
  | (p, ok) :: q => send q (called ++ [p]) (if ok then S i else i)
  end.
Definition send_message (plugins : list (nat * bool)) : list nat * (nat * nat) :=
  let (called, i) := send plugins [] 0 in (called, (i, length plugins)).
