(** How messages get from the sockets of a stack to its handler: reading within the quota, checking length and encoding, the queue of
    received messages, messages of senders that are not known (yet).
    stp_zmq/zstack.py:479-646, 773-801; the quotas: plenum/server/quota_control.py, node.py:294-306, 1051-1053, 1103, 1118.

    Simplifications.  A message is its number, its length in bytes, whether it is UTF-8 and whether it is a ping or pong.  Senders are
    numbers; whether a sender's key is UTF-8 is a parameter.  A socket is the list of what its next reads give until one says that
    there is nothing ("again").  What the handler does with a message is in Intake_Model.v; heartbeats, the answers to pings and
    reconnecting after too many of them are left out.  [sys.maxsize] is taken for no limit.  [seen] and [out] are ghosts: what was
    accepted from the sockets, and what became of each message taken out of the queue. *)
From Coq Require Import List Arith Bool.
Import ListNotations.
From Verif Require Import Dict.

Record msg := { m_id : nat; m_len : nat; m_utf8 : bool; m_ping : bool }.
(** what a read from a socket gives: the parts of a message (after the sender's key, for the listener), or an error *)
Inductive frame := Parts (i : nat) (ps : list msg) | Fail.

Record quota := { q_count : nat; q_size : nat }.

(** what became of a message that was taken out of the queue *)
Inductive fate := Handled | PingPong | Unknown | Dropped.

Record stack := {
  listener : list frame;                     (* what waits at the listening socket *)
  socks : dict (list frame);                 (* remotesByKeys: known senders, and what waits at their sockets *)
  rx : list (msg * nat);                     (* rxMsgs *)
  stash : list (msg * nat);                  (* _stashed_unknown_remote_msgs *)
  participating : bool;                      (* _node_mode *)
  rejected : list (nat * nat);               (* calls of msgRejectHandler *)
  seen : list (msg * nat);
  out : list (msg * nat * fate) }.

Definition with_listener (l : list frame) (s : stack) : stack :=
  {| listener := l; socks := socks s; rx := rx s; stash := stash s; participating := participating s; rejected := rejected s; seen := seen s; out := out s |}.
Definition with_socks (d : dict (list frame)) (s : stack) : stack :=
  {| listener := listener s; socks := d; rx := rx s; stash := stash s; participating := participating s; rejected := rejected s; seen := seen s; out := out s |}.
Definition with_rx (l : list (msg * nat)) (s : stack) : stack :=
  {| listener := listener s; socks := socks s; rx := l; stash := stash s; participating := participating s; rejected := rejected s; seen := seen s; out := out s |}.
Definition with_stash (l : list (msg * nat)) (s : stack) : stack :=
  {| listener := listener s; socks := socks s; rx := rx s; stash := l; participating := participating s; rejected := rejected s; seen := seen s; out := out s |}.
Definition with_mode (b : bool) (s : stack) : stack :=
  {| listener := listener s; socks := socks s; rx := rx s; stash := stash s; participating := b; rejected := rejected s; seen := seen s; out := out s |}.
Definition reject (i m : nat) (s : stack) : stack :=
  {| listener := listener s; socks := socks s; rx := rx s; stash := stash s; participating := participating s; rejected := rejected s ++ [(i, m)];
     seen := seen s; out := out s |}.
Definition accept (x : msg * nat) (s : stack) : stack :=
  {| listener := listener s; socks := socks s; rx := rx s ++ [x]; stash := stash s; participating := participating s; rejected := rejected s;
     seen := seen s ++ [x]; out := out s |}.
Definition settle (x : msg * nat) (f : fate) (s : stack) : stack :=
  {| listener := listener s; socks := socks s; rx := rx s; stash := stash s; participating := participating s; rejected := rejected s;
     seen := seen s; out := out s ++ [(x, f)] |}.

(** __init__ (zstack.py:83-84, 122, 132) *)
Definition init : stack :=
  {| listener := []; socks := []; rx := []; stash := []; participating := false; rejected := []; seen := []; out := [] |}.

Section Stack.
  Variable key_utf8 : nat -> bool.
  (** onlyListener; MSG_LEN_LIMIT; ZMQ_STASH_UNKNOWN_REMOTE_MSGS_QUEUE_SIZE; DEFAULT_SENDER_QUOTA *)
  Variable only_listener : bool.
  Variables len_limit stash_limit sender_quota : nat.

  (** [_verifyAndAppend] (zstack.py:499-518), message_length_validator.py *)
  Definition verify_and_append (i : nat) (m : msg) (s : stack) : stack :=
    if negb (key_utf8 i) then s
    else if (m_len m <=? len_limit) && m_utf8 m then accept (m, i) s
    else reject i (m_id m) s.

  (** [_receiveFromListener] (zstack.py:520-553); [None] is the ValueError of unpacking, which nobody catches; the number of
      messages received is [i] *)
  Fixpoint from_listener (q : quota) (i size : nat) (fs : list frame) (s : stack) : option (stack * nat) :=
    if (i <? q_count q) && (size <? q_size q) then
      match fs with
      | [] => Some (with_listener [] s, i)
      | Fail :: fs' => from_listener q i size fs' s
      | Parts k ps :: fs' =>
          match ps with
          | [] => None
          | [m] => if m_len m =? 0 then from_listener q i size fs' s
                   else from_listener q (S i) (size + m_len m) fs' (verify_and_append k m s)
          | _ :: _ :: _ => from_listener q i size fs' s
          end
      end
    else Some (with_listener fs s, i).

  (** one socket in [_receiveFromRemotes] (zstack.py:564-589) *)
  Fixpoint from_socket (k i : nat) (fs : list frame) (s : stack) : option (stack * nat) :=
    if i <? sender_quota then
      match fs with
      | [] => Some (with_socks (set k [] (socks s)) s, i)
      | Fail :: fs' => from_socket k i fs' s
      | Parts _ ps :: fs' =>
          match ps with
          | [m] => if m_len m =? 0 then from_socket k i fs' s else from_socket k (S i) fs' (verify_and_append k m s)
          | _ => None
          end
      end
    else Some (with_socks (set k fs (socks s)) s, i).
  Fixpoint from_sockets (ks : list nat) (s : stack) : option stack :=
    match ks with
    | [] => Some s
    | k :: ks' => match from_socket k 0 (get_or k [] (socks s)) s with None => None | Some (s', _) => from_sockets ks' s' end
    end.

  (** one message taken out of the queue (zstack.py:614-646): a ping or pong is answered; one of an unknown sender is put away, in a
      [deque] that lets the oldest go when it is full, or dropped; others go to the handler *)
  Definition process_one (x : msg * nat) (s : stack) : stack :=
    if m_ping (fst x) then settle x PingPong s
    else if negb only_listener && match get (snd x) (socks s) with None => true | Some _ => false end then
      if participating s then settle x Unknown s
      else if stash_limit =? 0 then settle x Dropped s
      else
        match stash s with
        | y :: rest => if stash_limit <=? length (stash s) then settle y Dropped (with_stash (rest ++ [x]) s)
                       else with_stash (stash s ++ [x]) s
        | [] => with_stash [x] s
        end
    else settle x Handled s.
  (** [processReceived(limit)] (zstack.py:606-646), which gives the number of messages taken out *)
  Fixpoint process_received (limit : nat) (s : stack) : stack * nat :=
    match limit with
    | O => (s, 0)
    | S limit' =>
        match rx s with
        | [] => (s, 0)
        | x :: rest => let '(s', n) := process_received limit' (process_one x (with_rx rest s)) in (s', S n)
        end
    end.

  (** [service(limit, quota)] (zstack.py:479-497, 590-604); [limit = 0] is none *)
  Definition service (limit : nat) (q : quota) (s : stack) : option (stack * nat) :=
    match from_listener q 0 0 (listener s) s with
    | None => None
    | Some (s1, _) =>
        match from_sockets (map fst (socks s1)) s1 with
        | None => None
        | Some s2 => Some (process_received (if limit =? 0 then length (rx s2) else limit) s2)
        end
    end.

  (** [process_unknown_remote_msgs] (zstack.py:795-801) *)
  Definition process_unknown (s : stack) : stack :=
    let s1 := with_stash [] (with_rx (rx s ++ stash s) s) in fst (process_received (length (rx s1)) s1).

  (** frames arrive; the stack is serviced; senders become known or are forgotten; the mode changes; a catch-up ends (node.py:1828) *)
  Inductive op :=
  | Arrive (f : frame) | ArriveFrom (k : nat) (f : frame) | Service (limit : nat) (q : quota)
  | Connect (k : nat) | Disconnect (k : nat) | Mode (b : bool) | ProcessUnknown.
  Definition step (s : stack) (o : op) : option stack :=
    match o with
    | Arrive f => Some (with_listener (listener s ++ [f]) s)
    | ArriveFrom k f => Some (match get k (socks s) with None => s | Some fs => with_socks (set k (fs ++ [f]) (socks s)) s end)
    | Service limit q => match service limit q s with None => None | Some (s', _) => Some s' end
    | Connect k => Some (match get k (socks s) with None => with_socks (set k [] (socks s)) s | Some _ => s end)
    | Disconnect k => Some (with_socks (del k (socks s)) s)
    | Mode b => Some (with_mode b s)
    | ProcessUnknown => Some (process_unknown s)
    end.
  Fixpoint run (s : stack) (os : list op) : option stack :=
    match os with [] => Some s | o :: os' => match step s o with None => None | Some s' => run s' os' end end.
End Stack.

(** the quota of the clients, with as many requests waiting to be ordered (quota_control.py:58-77) *)
Definition client_quota (max_queue : nat) (q : quota) (waiting : nat) : quota :=
  if max_queue <=? waiting then {| q_count := 0; q_size := 0 |} else q.
