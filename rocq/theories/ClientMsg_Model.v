(** The queue of messages to clients: what a node sends to a client goes through it, is sent at once if the socket takes it, and
    is kept and sent again later if the client cannot be reached now.
    stp_zmq/client_message_provider.py, class [ClientMessageProvider]; the limits are those of stp_core/config.py:52-55.

    Simplifications.  Clients and messages are numbers; times are whole seconds read from the timer, which [Tick] advances and
    which does not move while a call runs.  What the socket answers is an oracle [net pass client position]: any function of the
    number of the call, the client and the place of the message in the list the call walks over, so nothing is assumed about it.
    The log records each message that leaves the queue, why and when; the code keeps no such log ([Sent] is what the socket got,
    the others are only seen as missing).  The texts of errors and the metrics are left out. *)
From Coq Require Import List Arith Bool.
Import ListNotations.
From Verif Require Import Dict.

(** what [_transmit_one_msg_throughlistener] can come to (client_message_provider.py:60-90): the socket took it (90); the message is
    too large (76-79); the socket says "again", or that there is no way to the host, errno 113 (80-82, 84-85); another error (83-88) *)
Inductive outcome := Taken | TooLarge | Retry | Broken.
Definition is_taken (o : outcome) : bool := match o with Taken => true | _ => false end.
(** [need_to_resend] *)
Definition is_retry (o : outcome) : bool := match o with Retry => true | _ => false end.

(** why a message left the queue *)
Inductive why := Sent | Unsendable | Evicted | Expired.
Record event := { ev_why : why; ev_client : nat; ev_msg : nat * nat; ev_at : nat }.

(** a queue of one client: times and messages, oldest first (client_message_provider.py:30-31) *)
Notation queue := (list (nat * nat)).
Record state := { pend : dict queue; now : nat; pass : nat; log : list event }.
Definition with_pend (p : dict queue) (s : state) : state := {| pend := p; now := now s; pass := pass s; log := log s |}.
Definition record_ev (w : why) (i : nat) (x : nat * nat) (s : state) : state :=
  {| pend := pend s; now := now s; pass := pass s;
     log := log s ++ [{| ev_why := w; ev_client := i; ev_msg := x; ev_at := now s |}] |}.
Definition next_pass (s : state) : state := {| pend := pend s; now := now s; pass := S (pass s); log := log s |}.

(** __init__ (client_message_provider.py:22) *)
Definition init : state := {| pend := []; now := 0; pass := 0; log := [] |}.

(** the client's own queue, empty if it has none *)
Definition q (s : state) (i : nat) : queue := @get_or queue i [] (pend s).

(** the operations: [transmit_through_listener(m, i)]; the two repeating timers (client_message_provider.py:23-24); time passes *)
Inductive op := Give (i m : nat) | Resend | Clean | Tick (d : nat).

Definition same (x y : nat * nat) : bool := (fst x =? fst y) && (snd x =? snd y).
(** [list.remove]: the first equal one, or a ValueError *)
Fixpoint list_remove (x : nat * nat) (l : queue) : option queue :=
  match l with
  | [] => None
  | y :: l' => if same x y then Some l' else match list_remove x l' with None => None | Some l'' => Some (y :: l'') end
  end.

Section Provider.
  Variable net : nat -> nat -> nat -> outcome.
  (** PENDING_CLIENT_LIMIT, PENDING_MESSAGES_FOR_ONE_CLIENT_LIMIT, RESEND_CLIENT_MSG_TIMEOUT, REMOVE_CLIENT_MSG_TIMEOUT *)
  Variables client_limit msg_limit resend_after remove_after : nat.

  (** [_remove_message] (client_message_provider.py:98-101); [None] is a KeyError or a ValueError *)
  Definition remove_message (i : nat) (x : nat * nat) (s : state) : option state :=
    match get i (pend s) with
    | None => None
    | Some l =>
        match list_remove x l with
        | None => None
        | Some [] => Some (with_pend (del i (pend s)) s)
        | Some l' => Some (with_pend (set i l' (pend s)) s)
        end
    end.

  (** the walk over a copy of a client's list, trying the ones that are due (client_message_provider.py:39-44, 52-57); [k] is the
      place in the list and [r] the result so far *)
  Fixpoint send_loop (due : nat * nat -> bool) (i k : nat) (l : queue) (r : bool) (s : state) : option (state * bool) :=
    match l with
    | [] => Some (s, r)
    | x :: l' =>
        if due x then
          let o := net (pass s) i k in
          if is_retry o then send_loop due i (S k) l' false s
          else
            match remove_message i x s with
            | None => None
            | Some s' => send_loop due i (S k) l' (is_taken o) (record_ev (if is_taken o then Sent else Unsendable) i x s')
            end
        else send_loop due i (S k) l' r s
    end.

  (** [popitem(last=False)]: the client that has been in the dict longest, with all its messages (client_message_provider.py:32-33) *)
  Definition evict_client (s : state) : state :=
    if client_limit <? length (pend s) then
      match pend s with
      | [] => s
      | (j, l) :: rest => fold_left (fun s x => record_ev Evicted j x s) l (with_pend rest s)
      end
    else s.
  (** the oldest message of the client (client_message_provider.py:34-35); [None] is a KeyError *)
  Definition evict_message (i : nat) (s : state) : option state :=
    match get i (pend s) with
    | None => None
    | Some l =>
        if msg_limit <? length l then
          match l with [] => Some s | x :: l' => Some (record_ev Evicted i x (with_pend (set i l' (pend s)) s)) end
        else Some s
    end.

  (** [transmit_through_listener] (client_message_provider.py:29-45) *)
  Definition give (i m : nat) (s : state) : option (state * bool) :=
    let s := with_pend (set i (q s i ++ [(now s, m)]) (pend s)) s in
    let s := evict_client s in
    match evict_message i s with
    | None => None
    | Some s => match send_loop (fun _ => true) i 0 (q s i) true s with None => None | Some (s, r) => Some (next_pass s, r) end
    end.

  (** [_send_pending_messages] (client_message_provider.py:47-58) *)
  Definition due_for_resend (t : nat) (x : nat * nat) : bool := resend_after <=? t - fst x.
  Fixpoint resend_clients (is : list nat) (s : state) : option state :=
    match is with
    | [] => Some s
    | i :: is' =>
        match get i (pend s) with
        | None => None
        | Some l =>
            match send_loop (due_for_resend (now s)) i 0 l true s with None => None | Some (s', _) => resend_clients is' s' end
        end
    end.
  Definition resend (s : state) : option state :=
    match resend_clients (map fst (pend s)) s with None => None | Some s' => Some (next_pass s') end.

  (** [_remove_old_messages] (client_message_provider.py:92-96) *)
  Definition too_old (t : nat) (x : nat * nat) : bool := remove_after <=? t - fst x.
  Fixpoint clean_loop (i : nat) (l : queue) (s : state) : option state :=
    match l with
    | [] => Some s
    | x :: l' =>
        if too_old (now s) x then
          match remove_message i x s with None => None | Some s' => clean_loop i l' (record_ev Expired i x s') end
        else clean_loop i l' s
    end.
  Fixpoint clean_clients (is : list nat) (s : state) : option state :=
    match is with
    | [] => Some s
    | i :: is' =>
        match get i (pend s) with
        | None => None
        | Some l => match clean_loop i l s with None => None | Some s' => clean_clients is' s' end
        end
    end.
  Definition clean (s : state) : option state := clean_clients (map fst (pend s)) s.

  Definition step (s : state) (o : op) : option state :=
    match o with
    | Give i m => match give i m s with None => None | Some (s', _) => Some s' end
    | Resend => resend s
    | Clean => clean s
    | Tick d => Some {| pend := pend s; now := now s + d; pass := pass s; log := log s |}
    end.
  Fixpoint run (s : state) (os : list op) : option state :=
    match os with [] => Some s | o :: os' => match step s o with None => None | Some s' => run s' os' end end.
End Provider.
