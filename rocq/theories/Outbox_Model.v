(** Model of what the replicas of a node hand to it, and what the node does with it:
    plenum/server/replicas.py:114-139, plenum/server/replica.py:558-573, 598-620, plenum/server/node.py:1316-1345, 2231-2258, 2598-2606.
    Handling a message does not put new ones in the out boxes here, and does not change which instances there are. *)
From Coq Require Import List Arith Bool.
Import ListNotations.

(** What a replica hands over: a message for other nodes, an Ordered, a Reject of the request with this digest, a suspicion, another
    exception, or something else *)
Inductive msg := Wire (x : nat) | Ord (v k : nat) | Rej (d : nat) | Susp (x : nat) | Exn (x : nat) | Odd (x : nat).
(** What came of it: sent to the other nodes, [processOrdered] called, or not, sent to this client, to none, the suspicion reported,
    the exception raised, logged *)
Inductive outcome := Sent | Processed | Dropped | Answered (c : nat) | Unanswered | Blamed | Raised | Logged.
Record entry := Entry { e_inst : nat; e_msg : msg; e_out : outcome }.
Record node := Node { boxes : list (nat * list msg) (** [outBox] of the replicas, sorted by instance *);
  senders : list (nat * nat) (** [requestSender] *); can : bool (** [can_order_commits] of the master's replica *);
  trace : list entry }.
Definition init : node := Node [] [] false [].

Definition is_ord (m : msg) : bool := match m with Ord _ _ => true | _ => false end.
Definition find (d : nat) (l : list (nat * nat)) : option nat :=
  match List.find (fun p => fst p =? d) l with Some p => Some (snd p) | None => None end.
Definition del (d : nat) (l : list (nat * nat)) : list (nat * nat) := filter (fun p => negb (fst p =? d)) l.

(** node.py:1325-1344, 2254-2258 [try_processing_ordered], 2260-2267 [processEscalatedException] *)
Definition handle (can : bool) (snd : list (nat * nat)) (m : msg) : list (nat * nat) * outcome :=
  match m with
  | Wire _ => (snd, Sent)
  | Ord _ _ => (snd, if can then Processed else Dropped)
  | Rej d => match find d snd with Some c => (del d snd, Answered c) | None => (snd, Unanswered) end
  | Susp _ => (snd, Blamed)
  | Exn _ => (snd, Raised)
  | Odd _ => (snd, Logged)
  end.
Definition raised (w : outcome) : bool := match w with Raised => true | _ => false end.

(** replicas.py:118: [round(limit / self.num_replicas)]: to the nearest, a half to the even one.  (Floats are exact enough for limits below 2^50.) *)
Definition rounded (l n : nat) : nat :=
  let q := l / n in let r := l mod n in
  if 2 * r <? n then q else if n <? 2 * r then S q else if Nat.even q then q else S q.
(** replicas.py:115-124.  (With a limit and without replicas it divides by zero; there is nothing to be served then.) *)
Definition per_replica (limit : option nat) (n : nat) : option nat :=
  match limit with
  | None => None
  | Some l => let p := rounded l n in Some (if p =? 0 then 1 else p)
  end.
Definition full (per : option nat) (num : nat) : bool := match per with Some p => p <=? num | None => false end.

(** replicas.py:125-131 and node.py:1323-1344 together, one replica; whether an exception left it *)
Fixpoint serve (can : bool) (per : option nat) (num i : nat) (b : list msg) (snd : list (nat * nat))
  : list msg * list (nat * nat) * list entry * bool :=
  match b with
  | [] => ([], snd, [], false)
  | m :: r =>
      let '(snd1, w) := handle can snd m in
      if raised w then (r, snd1, [Entry i m w], true)
      else if full per (S num) then (r, snd1, [Entry i m w], false)
      else let '(r2, snd2, t, x) := serve can per (S num) i r snd1 in (r2, snd2, Entry i m w :: t, x)
  end.
(** all replicas, up to an exception *)
Fixpoint serve_all (can : bool) (per : option nat) (bs : list (nat * list msg)) (snd : list (nat * nat))
  : list (nat * list msg) * list (nat * nat) * list entry * bool :=
  match bs with
  | [] => ([], snd, [], false)
  | (i, b) :: r =>
      let '(b1, snd1, t1, x1) := serve can per 0 i b snd in
      if (x1 : bool) then ((i, b1) :: r, snd1, t1, true)
      else let '(r2, snd2, t2, x2) := serve_all can per r snd1 in ((i, b1) :: r2, snd2, t1 ++ t2, x2)
  end.
(** node.py:1316-1345 [service_replicas_outbox] *)
Definition turn (s : node) (limit : option nat) : node :=
  let '(bs, snd, t, _) := serve_all (can s) (per_replica limit (length (boxes s))) (boxes s) (senders s) in
  Node bs snd (can s) (trace s ++ t).
(** node.py:2231-2252 [force_process_ordered], replicas.py:133-138, replica.py:598-620 (called without a key) *)
Definition take (can : bool) (p : nat * list msg) : list entry :=
  map (fun m => Entry (fst p) m (if can then Processed else Dropped)) (filter is_ord (snd p)).
Definition force (s : node) : node :=
  Node (map (fun p => (fst p, filter (fun m => negb (is_ord m)) (snd p))) (boxes s)) (senders s) (can s)
       (trace s ++ flat_map (take (can s)) (boxes s)).

(** replica.py:558-573 [send] *)
Definition put (i : nat) (m : msg) (bs : list (nat * list msg)) : list (nat * list msg) :=
  map (fun p => if fst p =? i then (fst p, snd p ++ [m]) else p) bs.
Definition has (i : nat) (bs : list (nat * list msg)) : bool := existsb (fun p => fst p =? i) bs.
(** [SortedDict] *)
Fixpoint add (i : nat) (bs : list (nat * list msg)) : list (nat * list msg) :=
  match bs with
  | [] => [(i, [])]
  | (j, b) :: r => if i <? j then (i, []) :: bs else (j, b) :: add i r
  end.
(** A replica hands over a message, a client's request comes (node.py:2157-2158) or is done with (2150-2152), the queues are served, catch-up starts
    (2598-2606), the node takes part or not, an instance is added (1260-1271) or removed (1273-1275) *)
Inductive op := Put (i : nat) (m : msg) | Client (d c : nat) | Done (d : nat) | Turn (limit : option nat) | Catchup | Ready (b : bool)
  | Add (i : nat) | Remove (i : nat).
Definition step (s : node) (o : op) : node :=
  match o with
  | Put i m => Node (put i m (boxes s)) (senders s) (can s) (trace s)
  | Client d c => Node (boxes s) ((d, c) :: del d (senders s)) (can s) (trace s)
  | Done d => Node (boxes s) (del d (senders s)) (can s) (trace s)
  | Turn limit => turn s limit
  | Catchup => let s := force s in Node (boxes s) (senders s) false (trace s)
  | Ready b => Node (boxes s) (senders s) b (trace s)
  | Add i => if has i (boxes s) then s else Node (add i (boxes s)) (senders s) (can s) (trace s)
  | Remove i => Node (filter (fun p => negb (fst p =? i)) (boxes s)) (senders s) (can s) (trace s)
  end.
Definition run (s : node) (os : list op) : node := fold_left step os s.
