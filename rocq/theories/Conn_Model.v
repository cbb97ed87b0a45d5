(** How a node keeps in touch with the other nodes: which of them it takes for connected, what it reports, how it connects to nodes that
    join or change address or keys, and how it tries again.
    stp_core/network/keep_in_touch.py; stp_zmq/kit_zstack.py:53-131; stp_zmq/remote.py:54-164; stp_core/network/network_interface.py:112-133,
    186-195; stp_zmq/zstack.py:168-180, 614-619, 651-734, 738-747, 772-793; the callers: plenum/common/stack_manager.py:100-210,
    plenum/server/pool_manager.py:203-325.

    Simplifications.  Nodes, keys and sockets are numbers, an address is a host and a port.  The verification key comes with the public
    key.  A socket tells its events in a list that is emptied by reading ([recv_monitor_message] until "again").  Pings are only recorded:
    that a ping can fail, and the pongs that are sent then, is left out (the flags do not depend on it: the ping in [connect] and
    [reconnectRemote] goes out on a new socket, which has no events).  Sets are lists without order mattering, except for the order in
    which newly connected nodes are looked at.  [open], [acts] and [reports] are ghosts: the sockets not closed, what was done, and the
    calls of [onConnsChanged]. *)
From Coq Require Import List Arith Bool.
Import ListNotations.
From Verif Require Import Dict.

(** the events of zmq that matter (remote.py:119-136), and the others *)
Inductive ev := Connected | Delayed | Disconnected | Closed | Other.
Definition ev_eqb (a b : ev) : bool :=
  match a, b with
  | Connected, Connected | Delayed, Delayed | Disconnected, Disconnected | Closed, Closed | Other, Other => true
  | _, _ => false
  end.

Notation addr := (nat * nat)%type.
Definition addr_eqb (a b : addr) : bool := (fst a =? fst b) && (snd a =? snd b).

(** remote.py:29-53 *)
Record remote := { r_ha : addr; r_key : nat; r_sock : option nat; r_conn : bool; r_evs : list ev }.
Inductive act := Open (n : nat) (a : addr) | Ping (n : nat).
Record state := {
  registry : dict addr;                   (* the nodes of the pool and their addresses *)
  keys : dict nat;                        (* the keys on disk *)
  remotes : dict remote;
  by_key : dict nat;                      (* remotesByKeys *)
  retries : dict nat;                     (* _retry_connect *)
  conns : list nat;
  now : nat; next_check : nat;
  next_sock : nat; open : list nat; acts : list act; reports : list (list nat * list nat) }.
Definition with_registry x (s : state) : state :=
  {| registry := x; keys := keys s; remotes := remotes s; by_key := by_key s; retries := retries s; conns := conns s; now := now s;
     next_check := next_check s; next_sock := next_sock s; open := open s; acts := acts s; reports := reports s |}.
Definition with_keys x (s : state) : state :=
  {| registry := registry s; keys := x; remotes := remotes s; by_key := by_key s; retries := retries s; conns := conns s; now := now s;
     next_check := next_check s; next_sock := next_sock s; open := open s; acts := acts s; reports := reports s |}.
Definition with_remotes x (s : state) : state :=
  {| registry := registry s; keys := keys s; remotes := x; by_key := by_key s; retries := retries s; conns := conns s; now := now s;
     next_check := next_check s; next_sock := next_sock s; open := open s; acts := acts s; reports := reports s |}.
Definition with_by_key x (s : state) : state :=
  {| registry := registry s; keys := keys s; remotes := remotes s; by_key := x; retries := retries s; conns := conns s; now := now s;
     next_check := next_check s; next_sock := next_sock s; open := open s; acts := acts s; reports := reports s |}.
Definition with_retries x (s : state) : state :=
  {| registry := registry s; keys := keys s; remotes := remotes s; by_key := by_key s; retries := x; conns := conns s; now := now s;
     next_check := next_check s; next_sock := next_sock s; open := open s; acts := acts s; reports := reports s |}.
Definition with_conns x (s : state) : state :=
  {| registry := registry s; keys := keys s; remotes := remotes s; by_key := by_key s; retries := retries s; conns := x; now := now s;
     next_check := next_check s; next_sock := next_sock s; open := open s; acts := acts s; reports := reports s |}.
Definition with_time t c (s : state) : state :=
  {| registry := registry s; keys := keys s; remotes := remotes s; by_key := by_key s; retries := retries s; conns := conns s; now := t;
     next_check := c; next_sock := next_sock s; open := open s; acts := acts s; reports := reports s |}.
Definition with_open x k (s : state) : state :=
  {| registry := registry s; keys := keys s; remotes := remotes s; by_key := by_key s; retries := retries s; conns := conns s; now := now s;
     next_check := next_check s; next_sock := k; open := x; acts := acts s; reports := reports s |}.
Definition did (a : act) (s : state) : state :=
  {| registry := registry s; keys := keys s; remotes := remotes s; by_key := by_key s; retries := retries s; conns := conns s; now := now s;
     next_check := next_check s; next_sock := next_sock s; open := open s; acts := acts s ++ [a]; reports := reports s |}.
Definition report (i o : list nat) (s : state) : state :=
  {| registry := registry s; keys := keys s; remotes := remotes s; by_key := by_key s; retries := retries s; conns := conns s; now := now s;
     next_check := next_check s; next_sock := next_sock s; open := open s; acts := acts s; reports := reports s ++ [(i, o)] |}.

(** keep_in_touch.py:15-22, kit_zstack.py:38-51 *)
Definition init (reg : dict addr) (ks : dict nat) : state :=
  {| registry := reg; keys := ks; remotes := []; by_key := []; retries := []; conns := []; now := 0; next_check := 0; next_sock := 0;
     open := []; acts := []; reports := [] |}.

(** [eventIndex]: the first place in the reversed list, or "maxsize" (remote.py:125-129) *)
Fixpoint index (e : ev) (l : list ev) : option nat :=
  match l with [] => None | x :: l' => if ev_eqb e x then Some 0 else match index e l' with None => None | Some k => Some (S k) end end.
Definition omin (a b : option nat) : option nat :=
  match a, b with None, x | x, None => x | Some a, Some b => Some (Nat.min a b) end.
Definition olt (a b : option nat) : bool :=
  match a, b with None, _ => false | Some _, None => true | Some a, Some b => a <? b end.
(** [hasLostConnection] from the events read (remote.py:111-140) *)
Definition lost (evs : list ev) : bool :=
  if existsb (ev_eqb Disconnected) evs || existsb (ev_eqb Closed) evs then
    let l := rev evs in
    let d := omin (index Disconnected l) (index Closed l) in
    olt d (index Connected l) && olt d (index Delayed l)
  else false.

Definition with_conn (b : bool) (e : list ev) (r : remote) : remote :=
  {| r_ha := r_ha r; r_key := r_key r; r_sock := r_sock r; r_conn := b; r_evs := e |}.
Definition with_sock (o : option nat) (b : bool) (r : remote) : remote :=
  {| r_ha := r_ha r; r_key := r_key r; r_sock := o; r_conn := b; r_evs := [] |}.

(** the property [isConnected], which reads the events if the flag is set (remote.py:57-65, 111-116) *)
Definition look (r : remote) : remote * bool :=
  if r_conn r then
    match r_sock r with
    | None => (r, true)
    | Some _ => if lost (r_evs r) then (with_conn false [] r, false) else (with_conn true [] r, true)
    end
  else (r, false).

Definition mem (x : nat) (l : list nat) : bool := existsb (Nat.eqb x) l.
Definition minus (a b : list nat) : list nat := filter (fun x => negb (mem x b)) a.
Definition same_set (a b : list nat) : bool := forallb (fun x => mem x b) a && forallb (fun x => mem x a) b.

(** [removeRemote] of the stack (zstack.py:168-180) *)
Definition forget (n : nat) (s : state) : state :=
  match get n (remotes s) with
  | None => s
  | Some r => with_by_key (del (r_key r) (by_key s)) (with_remotes (del n (remotes s)) s)
  end.

(** [_connsChanged] (keep_in_touch.py:71-100): of two nodes at one address the one that connects now stays; [None] is RemoteNotFound *)
Fixpoint conns_changed (ins : list nat) (s : state) : option state :=
  match ins with
  | [] => Some s
  | i :: ins' =>
      match get i (remotes s) with
      | None => None
      | Some r =>
          let others := map fst (filter (fun x => addr_eqb (r_ha (snd x)) (r_ha r) && negb (fst x =? i)) (remotes s)) in
          conns_changed ins' (fold_left (fun s o => forget o s) others s)
      end
  end.

(** [checkConns] (keep_in_touch.py:49-69), [connecteds] (network_interface.py:112-121) *)
Definition connecteds (d : dict remote) : list nat := map fst (filter (fun x => snd (look (snd x))) d).
Definition check_conns (s : state) : option state :=
  let v := connecteds (remotes s) in
  let s := with_remotes (map (fun x => (fst x, fst (look (snd x)))) (remotes s)) s in
  if same_set (conns s) v then Some s
  else
    let ins := minus v (conns s) in
    let outs := minus (conns s) v in
    match conns_changed ins (with_conns v s) with
    | None => None
    | Some s => Some (report ins outs s)
    end.

Section Stack.
  (** the node's own name; whether an address is one of this host; RETRY_CONNECT, RETRY_SOCKET_RECONNECT,
      MAX_RECONNECT_RETRY_ON_SAME_SOCKET, RETRY_TIMEOUT_* (stp_core/config.py:19-21, 61-62) *)
  Variable self : nat.
  Variable local : nat -> bool.
  Variables retry_connect retry_socket : bool.
  Variables max_retry timeout : nat.

  (** network_interface.py:186-195 *)
  Definition same_addr (a b : addr) : bool :=
    addr_eqb a b || (snd a =? snd b) && local (fst a) && local (fst b).

  (** a new socket for a remote (remote.py:77-89); one it had is not closed here *)
  Definition open_socket (n : nat) (r : remote) (b : bool) (s : state) : state :=
    let k := next_sock s in
    did (Ping n) (did (Open n (r_ha r)) (with_open (open s ++ [k]) (S k) (with_remotes (set n (with_sock (Some k) b r) (remotes s)) s))).
  (** [disconnect] (remote.py:97-109) *)
  Definition close_socket (r : remote) (s : state) : state :=
    match r_sock r with None => s | Some k => with_open (filter (fun x => negb (x =? k)) (open s)) (next_sock s) s end.
  (** [reconnectRemote] (zstack.py:698-713) *)
  Definition reconnect (n : nat) (r : remote) (s : state) : state := open_socket n r false (close_socket r s).

  (** [connect] (zstack.py:651-695): a remote there is already keeps its address; without a key on disk the error is caught by
      [connectToMissing] *)
  Definition connect (n : nat) (a : addr) (s : state) : state :=
    match get n (remotes s) with
    | Some r => open_socket n r (r_conn r) s
    | None =>
        match get n (keys s) with
        | None => s
        | Some k =>
            let r := {| r_ha := a; r_key := k; r_sock := None; r_conn := false; r_evs := [] |} in
            open_socket n r false (with_by_key (set k n (by_key s)) s)
        end
    end.

  (** [reconcileNodeReg] (kit_zstack.py:70-86) *)
  Definition matched (s : state) (n : nat) : bool :=
    match get n (remotes s), get n (registry s) with Some r, Some a => same_addr (r_ha r) a | _, _ => false end.
  Definition missing (s : state) : list (nat * addr) :=
    filter (fun x => negb (matched s (fst x)) && negb (fst x =? self)) (registry s).
  (** [connectToMissing] (kit_zstack.py:113-131) *)
  Definition connect_missing (m : list (nat * addr)) (s : state) : state := fold_left (fun s x => connect (fst x) (snd x) s) m s.

  (** [retryDisconnected] (kit_zstack.py:88-111) *)
  Definition retry_one (exclude : list nat) (n : nat) (s : state) : state :=
    match get n (remotes s) with
    | None => s
    | Some r =>
        if mem n exclude then with_retries (del n (retries s)) s
        else
          let '(r', c) := look r in
          let s := with_remotes (set n r' (remotes s)) s in
          if c then with_retries (del n (retries s)) s
          else if negb retry_socket then did (Ping n) s
          else
            let k := get_or n 0 (retries s) in
            if match r_sock r' with None => true | Some _ => false end || (max_retry <=? k)
            then reconnect n r' (with_retries (del n (retries s)) s)
            else did (Ping n) (with_retries (set n (S k) (retries s)) s)
    end.
  Definition retry_all (exclude : list nat) (s : state) : state :=
    if retry_connect then fold_left (fun s n => retry_one exclude n s) (map fst (remotes s)) s else s.

  (** [maintainConnections] (kit_zstack.py:53-68) *)
  Definition maintain (force : bool) (s : state) : state :=
    if (now s <? next_check s) && negb force then s
    else
      let s := with_time (now s) (now s + timeout) s in
      let m := missing s in
      retry_all (map fst m) (connect_missing m s).

  (** [TxnStackManager.removeRemote] (stack_manager.py:196-207) *)
  Definition remove (n : nat) (s : state) : state :=
    match get n (remotes s) with None => s | Some r => forget n (close_socket r s) end.

  (** a node joins (or is a validator again), moves, gets other keys, leaves (pool_manager.py:203-325); a turn of the event loop
      ([serviceLifecycle]: [Check], then [Maintain]); a message comes from the owner of a key; a socket tells an event; time passes *)
  Inductive op :=
  | Join (n : nat) (a : addr) (k : nat) | Move (n : nat) (a : addr) | Rekey (n : nat) (k : nat) | Leave (n : nat)
  | Check | Maintain (force : bool) | Received (k : nat) (pong : bool) | Event (n : nat) (e : ev) | Tick (d : nat).
  Definition step (s : state) (o : op) : option state :=
    match o with
    | Join n a k =>
        if n =? self then Some (with_registry (set n a (registry s)) s)
        else Some (maintain true (with_registry (set n a (registry s)) (with_keys (set n k (keys s)) s)))
    | Move n a =>
        if n =? self then Some (with_registry (set n a (registry s)) s)
        else Some (maintain true (with_registry (set n a (registry s)) (remove n s)))
    | Rekey n k => if n =? self then Some s else Some (maintain true (with_keys (set n k (keys s)) (remove n s)))
    | Leave n =>
        let s := with_registry (del n (registry s)) s in
        Some (if n =? self then s else remove n s)
    | Check => check_conns s
    | Maintain f => Some (maintain f s)
    | Received k pong =>
        Some (if negb retry_connect || pong then
                match get k (by_key s) with
                | None => s
                | Some n => match get n (remotes s) with None => s | Some r => with_remotes (set n (with_conn true (r_evs r) r) (remotes s)) s end
                end
              else s)
    | Event n e =>
        Some (match get n (remotes s) with
              | Some r => match r_sock r with None => s | Some _ => with_remotes (set n (with_conn (r_conn r) (r_evs r ++ [e]) r) (remotes s)) s end
              | None => s
              end)
    | Tick d => Some (with_time (now s + d) (next_check s) s)
    end.
  Fixpoint run (s : state) (os : list op) : option state :=
    match os with [] => Some s | o :: os' => match step s o with None => None | Some s' => run s' os' end end.
End Stack.
