(** Model of plenum/server/propagator.py (ReqState, Requests, Propagator) and of the functions of
    plenum/server/node.py which use it: processRequest, processPropagate,
    _clear_request_for_txn, mark_request_as_executed, check_outdated_reqs. *)
From Coq Require Import List Arith ZArith Bool.
From Verif Require Import Quorum_Model.
Import ListNotations.

(** A request: its digest, which is its key (common/request.py:87-89), and the rest of it.  The
    digest is a hash over the signing serialization; different bodies may share it. *)
Record request := Request { r_digest : nat; r_body : nat }.

(** The name of a sender; 48-50: it may be a str or (by mistake) bytes. *)
Inductive sender := Str (n : nat) | Bytes (n : nat).
Definition sender_eqb (a b : sender) : bool :=
  match a, b with Str x, Str y => x =? y | Bytes x, Bytes y => x =? y | _, _ => false end.
Definition is_str (s : sender) : bool := match s with Str _ => true | Bytes _ => false end.

(** 25-43 [ReqState] (the time stamps only feed check_outdated_reqs, see [check_outdated]) *)
Record rstate := RState {
  rs_request : request; forwarded : bool; forwardedTo : Z; propagates : list (sender * request);
  finalised : option request; executed : bool; unordered : Z }.
Definition new_rstate (r : request) : rstate := RState r false 0 [] None false 0.

(** What happened, for the statements only. *)
Inductive entry :=
| LAdd (k : nat)                                (* a record is made for the key *)
| LProp (k : nat) (s : sender) (r : request)    (* a propagate of [s] is recorded *)
| LSend (k : nat)                               (* this node sends its own propagate *)
| LForward (k : nat) (n : nat) (r : request)    (* forwarded to [n] replicas, [r] is the finalised request *)
| LFree (k : nat) | LExec (k : nat)
| LRemove (k : nat)                             (* removed since executed and freed *)
| LDrop (k : nat)                               (* removed by force *)
| LPool (n : nat).                              (* the pool has [n] validators from now on *)

(** [fin_count]: Requests.finalised_count; [processing]: the keys of node.requestSender;
    [nodes]: the number of validators; [replicas]: the number of instances. *)
Record state := State {
  requests : list (nat * rstate); fin_count : Z; processing : list nat; nodes : nat; replicas : nat; log : list entry }.
Definition init (nodes replicas : nat) : state := State [] 0 [] nodes replicas [].

Definition note (x : entry) (s : state) : state :=
  State (requests s) (fin_count s) (processing s) (nodes s) (replicas s) (log s ++ [x]).
Fixpoint get (k : nat) (l : list (nat * rstate)) : option rstate :=
  match l with [] => None | (k', r) :: l' => if k =? k' then Some r else get k l' end.
Fixpoint set (k : nat) (r : rstate) (l : list (nat * rstate)) : list (nat * rstate) :=
  match l with [] => [(k, r)] | (k', r') :: l' => if k =? k' then (k, r) :: l' else (k', r') :: set k r l' end.
Definition del (k : nat) (l : list (nat * rstate)) : list (nat * rstate) := filter (fun x => negb (fst x =? k)) l.
Definition put (k : nat) (r : rstate) (s : state) : state :=
  State (set k r (requests s)) (fin_count s) (processing s) (nodes s) (replicas s) (log s).

(** dict update: propagates[sender] = req *)
Fixpoint set_prop (x : sender) (r : request) (l : list (sender * request)) : list (sender * request) :=
  match l with [] => [(x, r)] | (x', r') :: l' => if sender_eqb x x' then (x, r) :: l' else (x', r') :: set_prop x r l' end.

(** 75-82 [Requests.add] *)
Definition add (r : request) (s : state) : state :=
  match get (r_digest r) (requests s) with
  | Some _ => s
  | None => note (LAdd (r_digest r)) (put (r_digest r) (new_rstate r) s)
  end.
(** 112-121 [Requests.add_propagate] *)
Definition add_propagate (r : request) (x : sender) (s : state) : state :=
  let s := add r s in
  match get (r_digest r) (requests s) with
  | None => s (* not reached *)
  | Some d => note (LProp (r_digest r) x r)
      (put (r_digest r) (RState (rs_request d) (forwarded d) (forwardedTo d) (set_prop x r (propagates d)) (finalised d) (executed d) (unordered d)) s)
  end.
(** 185-189 [Requests.has_propagated] *)
Definition has_propagated (r : request) (x : sender) (s : state) : bool :=
  match get (r_digest r) (requests s) with
  | None => false
  | Some d => existsb (fun p => sender_eqb (fst p) x) (propagates d)
  end.

(** 45-55 [ReqState.req_with_acceptable_quorum]; [seen]: the propagates looked at so far *)
Fixpoint acceptable (quorum : nat) (seen l : list (sender * request)) : option request :=
  match l with
  | [] => None
  | (x, r) :: l' =>
      if negb (is_str x) then acceptable quorum seen l'
      else
        let seen := seen ++ [(x, r)] in
        if is_reached quorum (length (filter (fun p => r_digest (snd p) =? r_digest r) seen)) then Some r
        else acceptable quorum seen l'
  end.

(** 243-275 [canForward]: the request to finalise, or None if the answer is a reason not to forward *)
Definition can_forward (r : request) (s : state) : option request :=
  match get (r_digest r) (requests s) with
  | None => None (* KeyError; not reached, the request was added before *)
  | Some d =>
      if forwarded d then None
      else if negb (is_reached (propagate (Quorums (nodes s))) (length (propagates d))) then None
      else acceptable (propagate (Quorums (nodes s))) [] (propagates d)
  end.
(** 141-145 [Requests.set_finalised] *)
Definition set_finalised (r : request) (s : state) : state :=
  match get (r_digest r) (requests s) with
  | None => s (* KeyError; not reached *)
  | Some d =>
      let c := match finalised d with None => (fin_count s + 1)%Z | Some _ => fin_count s end in
      State (set (r_digest r) (RState (rs_request d) (forwarded d) (forwardedTo d) (propagates d) (Some r) (executed d) (unordered d)) (requests s))
        c (processing s) (nodes s) (replicas s) (log s)
  end.
(** 278-290 [forward] with 99-110 [mark_as_forwarded] *)
Definition forward (r : request) (s : state) : state :=
  match get (r_digest r) (requests s) with
  | None => s (* KeyError; not reached *)
  | Some d => note (LForward (r_digest r) (replicas s) (match finalised d with Some q => q | None => rs_request d end))
      (put (r_digest r) (RState (rs_request d) true (Z.of_nat (replicas s)) (propagates d) (finalised d) (executed d) (Z.of_nat (replicas s))) s)
  end.
(** 305-319 [tryForwarding] *)
Definition try_forwarding (r : request) (s : state) : state :=
  match can_forward r s with
  | Some q => forward r (set_finalised q s)
  | None => s
  end.
(** 205-219 [propagate]; this node is [Str 0] *)
Definition self : sender := Str 0.
Definition propagate_own (r : request) (s : state) : state :=
  if has_propagated r self s then s else note (LSend (r_digest r)) (add_propagate r self s).
(** 293-303 [recordAndPropagate] *)
Definition record_and_propagate (r : request) (s : state) : state :=
  try_forwarding r (propagate_own r (add r s)).

(** node.py:2144-2152 [startedProcessingReq], [isProcessingReq], [doneProcessingReq] *)
Definition is_processing (k : nat) (s : state) : bool := existsb (Nat.eqb k) (processing s).
Definition start_processing (k : nat) (s : state) : state :=
  State (requests s) (fin_count s) (k :: processing s) (nodes s) (replicas s) (log s).
Definition done_processing (k : nat) (s : state) : state :=
  State (requests s) (fin_count s) (filter (fun x => negb (x =? k)) (processing s)) (nodes s) (replicas s) (log s).

(** node.py:2000-2056 [processRequest], the branch of a write request.  [ordered]: a reply was found
    in the ledger; [forced_ok]: what handle_request_if_forced answered (1986-1996). *)
Definition process_request (r : request) (ordered forced_ok : bool) (s : state) : state :=
  if ordered then s
  else if is_processing (r_digest r) s then record_and_propagate r s
  else
    let s := start_processing (r_digest r) s in
    if negb forced_ok then done_processing (r_digest r) s else record_and_propagate r s.

(** node.py:2092-2142 [processPropagate].  [ordered]: seqNoDB knows the payload digest. *)
Definition process_propagate (r : request) (frm : sender) (ordered forced_ok : bool) (s : state) : state :=
  let rest s := try_forwarding r (propagate_own r (add_propagate r frm s)) in
  if is_processing (r_digest r) s then rest s
  else if ordered then s
  else
    let s := start_processing (r_digest r) s in
    if negb forced_ok then done_processing (r_digest r) s else rest s.

(** 178-183 [Requests._clean] of the record [d] of key [k] (its request's key) *)
Definition clean (k : nat) (d : rstate) (s : state) : state :=
  if executed d && (forwardedTo d <=? 0)%Z then
    note (LRemove k) (State (del k (requests s))
      (match finalised d with Some _ => (fin_count s - 1)%Z | None => fin_count s end)
      (processing s) (nodes s) (replicas s) (log s))
  else s.
(** 147-156 [mark_as_executed]; without a record a KeyError: nothing changes *)
Definition mark_as_executed (k : nat) (s : state) : state :=
  match get k (requests s) with
  | None => s
  | Some d =>
      let d := RState (rs_request d) (forwarded d) (forwardedTo d) (propagates d) (finalised d) true (unordered d) in
      clean k d (note (LExec k) (put k d s))
  end.
(** 158-170 [free] *)
Definition free (k : nat) (s : state) : state :=
  match get k (requests s) with
  | None => s
  | Some d =>
      let d := RState (rs_request d) (forwarded d) (forwardedTo d - 1)%Z (propagates d) (finalised d) (executed d) (unordered d) in
      clean k d (note (LFree k) (put k d s))
  end.
(** 90-97 [ordered_by_replica] *)
Definition ordered_by_replica (k : nat) (s : state) : state :=
  match get k (requests s) with
  | None => s
  | Some d => put k (RState (rs_request d) (forwarded d) (forwardedTo d) (propagates d) (finalised d) (executed d) (unordered d - 1)%Z) s
  end.
(** 172-178 [force_free] *)
Definition force_free (k : nat) (s : state) : state :=
  match get k (requests s) with
  | None => s
  | Some d => note (LDrop k) (State (del k (requests s))
      (match finalised d with Some _ => (fin_count s - 1)%Z | None => fin_count s end)
      (processing s) (nodes s) (replicas s) (log s))
  end.
(** node.py:3120-3146 [check_outdated_reqs] for one key; [timed_out]: one of the two timeouts passed *)
Definition check_outdated (k : nat) (timed_out : bool) (s : state) : state :=
  match get k (requests s) with
  | None => s
  | Some d =>
      if executed d && (unordered d <=? 0)%Z then s
      else if timed_out then force_free k (done_processing k s)
      else s
  end.
(** node.py:1767-1781 [_clear_request_for_txn]: a transaction came by catch-up *)
Definition clear_for_txn (k : nat) (s : state) : state :=
  match get k (requests s) with
  | None => s
  | Some d =>
      let s1 :=
        if forwarded d && negb (executed d) then
          done_processing k (free k (ordered_by_replica k (mark_as_executed k s)))
        else s in
      if negb (forwarded d) then
        done_processing k (note (LDrop k) (State (del k (requests s1)) (fin_count s1) (processing s1) (nodes s1) (replicas s1) (log s1)))
      else s1
  end.

Inductive op :=
| ORequest (r : request) (ordered forced_ok : bool)
| OPropagate (r : request) (frm : sender) (ordered forced_ok : bool)
| OExecuted (k : nat) | OFree (k : nat) | OOrdered (k : nat) | ODone (k : nat)
| OOutdated (k : nat) (timed_out : bool) | OCatchup (k : nat)
| OPool (nodes replicas : nat). (* the pool changes *)
Definition step (s : state) (o : op) : state :=
  match o with
  | ORequest r a b => process_request r a b s
  | OPropagate r x a b => process_propagate r x a b s
  | OExecuted k => mark_as_executed k s
  | OFree k => free k s
  | OOrdered k => ordered_by_replica k s
  | ODone k => done_processing k s
  | OOutdated k t => check_outdated k t s
  | OCatchup k => clear_for_txn k s
  | OPool n r => State (requests s) (fin_count s) (processing s) n r (log s ++ [LPool n])
  end.
Definition run (nodes replicas : nat) (ops : list op) : state := fold_left step ops (init nodes replicas).
