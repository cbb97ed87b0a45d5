(** Model of the counting of clients and the restart of the client stack:
    plenum/common/stacks.py:31-136 (ClientZStack), with stp_zmq/zstack.py:343-430 and 1036-1046. *)
From Coq Require Import List Arith ZArith Bool.
From Verif Require Import Base.
Import ListNotations.
Local Open Scope res_scope.

(** Events of the monitor socket of the listener *)
Inductive event := Accepted | Disconnected | OtherEvent.

(** plenum/config.py:287-292, with tracking enabled (a stack with restart but no tracking is refused, stacks.py:51-55).
    [post_wait] is only the time slept, which the times in the operations include. *)
Record config := mkConfig { restart_enabled : bool; max_clients : nat; min_timeout : Z }.

(** The attributes connected_clients_num, connections_limit_reached, next_restart_min_time *)
Record cstack := mkStack { cs_count : nat; cs_reached : bool; cs_next : Z }.

(** 73-76 [init_connections_tracking_params], 78-82 [init_stack_restart_params]: [now] is the time, [deviation] the
    result of randint *)
Definition init_params (cfg : config) (now deviation : Z) (next : Z) : cstack :=
  mkStack 0 false (if restart_enabled cfg then now + min_timeout cfg + deviation else next)%Z.

(** 84-96 [handle_listener_events] *)
Fixpoint handle_listener_events (count : nat) (events : list event) : res nat :=
  match events with
  | [] => Ok count
  | Accepted :: es => handle_listener_events (count + 1) es
  | Disconnected :: es =>
    if 0 <? count then handle_listener_events (count - 1) es else Err AssertionError
  | OtherEvent :: es => handle_listener_events count es
  end.

(** 106-107 [_can_restart] *)
Definition can_restart (s : cstack) (now : Z) : bool := (cs_next s <? now)%Z.
(** 109-131 [handle_connections_limit] up to the restart: the new state, and whether the stack is to be restarted *)
Definition handle_connections_limit (cfg : config) (s : cstack) (now : Z) : cstack * bool :=
  let reached := max_clients cfg <=? cs_count s in
  (mkStack (cs_count s) reached (cs_next s),
   if reached then if restart_enabled cfg then can_restart s now else false else false).

(** ** The stack in its surroundings *)
(** The clients come and go; the monitor socket holds the events not read yet. A listener that is closed loses its
    clients and its monitor, and a new one has none (zstack.py:378-379, 421-427).
    [w_restarts]: the times at which the stack was found to have to restart. *)
Record world := mkWorld { w_open : bool; w_stack : cstack; w_events : list event; w_clients : nat; w_restarts : list Z }.

Inductive coming := Comes | Goes | Noise.
Definition client (c : coming) (w : world) : world :=
  if w_open w then
    match c with
    | Comes => mkWorld true (w_stack w) (w_events w ++ [Accepted]) (w_clients w + 1) (w_restarts w)
    | Goes => if 0 <? w_clients w
              then mkWorld true (w_stack w) (w_events w ++ [Disconnected]) (w_clients w - 1) (w_restarts w)
              else w
    | Noise => mkWorld true (w_stack w) (w_events w ++ [OtherEvent]) (w_clients w) (w_restarts w)
    end
  else w.
(** zstack.py:361-367, 411-440 [stop]; 343-359, 373-409 [start] *)
Definition stop (w : world) : world := mkWorld false (w_stack w) [] 0 (w_restarts w).
Definition start (w : world) : world := if w_open w then w else mkWorld true (w_stack w) [] 0 (w_restarts w).

(** 98-104 [restart] and 122: [during] is what the clients do while the stack sleeps *)
Definition restart (cfg : config) (now after deviation : Z) (during : list coming) (w : world) : world :=
  let w1 := fold_left (fun w c => client c w) during (start (stop w)) in
  mkWorld (w_open w1) (init_params cfg after deviation (cs_next (w_stack w1))) (w_events w1) (w_clients w1)
          (w_restarts w1 ++ [now]).

(** 133-136 [serviceClientStack]; the flag says whether an exception came out of it.  [now] is the time read in
    [_can_restart], [after] the one in [init_stack_restart_params]. *)
Definition service (cfg : config) (now after deviation : Z) (during : list coming) (w : world) : world * res unit :=
  if w_open w then
    match handle_listener_events (cs_count (w_stack w)) (w_events w) with
    | Err e => (mkWorld true (w_stack w) [] (w_clients w) (w_restarts w), Err e)
    | Ok n =>
      let s1 := mkStack n (cs_reached (w_stack w)) (cs_next (w_stack w)) in
      let '(s2, go) := handle_connections_limit cfg s1 now in
      let w1 := mkWorld true s2 [] (w_clients w) (w_restarts w) in
      (if go then restart cfg now after deviation during w1 else w1, Ok tt)
    end
  else (w, Ok tt).

Inductive op :=
| OClient (c : coming)
| OService (now after deviation : Z) (during : list coming)
| OStop
| OStart.

Definition step (cfg : config) (wx : world * list (res unit)) (o : op) : world * list (res unit) :=
  let '(w, xs) := wx in
  match o with
  | OClient c => (client c w, xs)
  | OService now after deviation during => let '(w', x) := service cfg now after deviation during w in (w', xs ++ [x])
  | OStop => (stop w, xs)
  | OStart => (start w, xs)
  end.
(** 31-71: the stack as it is made at the time [now]; then it is started *)
Definition new (cfg : config) (now deviation : Z) : world :=
  mkWorld true (init_params cfg now deviation 0) [] 0 [].
Definition run (cfg : config) (now deviation : Z) (ops : list op) : world * list (res unit) :=
  fold_left (step cfg) ops (new cfg now deviation, []).
