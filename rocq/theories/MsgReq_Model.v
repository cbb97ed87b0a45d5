(** Model of asking other nodes for messages of the three phases, and of answering:
    plenum/server/consensus/message_request/message_req_service.py, message_handlers.py (the
    handlers of PrePrepare, Prepare and Commit), plenum/server/models.py.

    The handlers of ViewChange and NewView are in ViewChange_Model.v.  A message is its kind, the
    fields looked at here, and the rest.  The three dictionaries of requests are one, with the
    kind in the key. *)
From Coq Require Import List Arith Bool.
Import ListNotations.

Inductive kind := KPrePrepare | KPrepare | KCommit.
Definition kind_eqb (a b : kind) : bool :=
  match a, b with KPrePrepare, KPrePrepare | KPrepare, KPrepare | KCommit, KCommit => true | _, _ => false end.
Definition key : Type := nat * nat.   (* view, sequence number *)
Definition key_eqb (a b : key) : bool := (fst a =? fst b) && (snd a =? snd b).
Definition name := nat.

(** [m_data]: digest, state root and ledger root, which a Commit does not have. *)
Record message := Msg { m_inst : nat; m_key : key; m_data : nat * nat * nat; m_rest : nat }.
Definition data_eqb (a b : nat * nat * nat) : bool :=
  (fst (fst a) =? fst (fst b)) && (snd (fst a) =? snd (fst b)) && (snd a =? snd b).

(** plenum/common/util.py:618-622 [compare_3PC_keys] >= 0: [k1] is not after [k2]; views do not count. *)
Definition not_after (k1 k2 : key) : bool := snd k1 <=? snd k2.

(** models.py:9-45: the first message for each key, and who sent one *)
Definition votes := list (key * (message * list name)).
Fixpoint vget (k : key) (d : votes) : option (message * list name) :=
  match d with [] => None | (k', v) :: d' => if key_eqb k' k then Some v else vget k d' end.
Fixpoint vset (k : key) (v : message * list name) (d : votes) : votes :=
  match d with
  | [] => [(k, v)]
  | (k', v') :: d' => if key_eqb k' k then (k', v) :: d' else (k', v') :: vset k v d'
  end.
Definition add_msg (m : message) (voter : name) (d : votes) : votes :=
  match vget (m_key m) d with
  | None => vset (m_key m) (m, [voter]) d
  | Some (m0, vs) => vset (m_key m) (m0, voter :: vs) d
  end.

(** consensus_shared_data.py, what is used here *)
Record shared := Shared {
  d_name : name; d_inst : nat; d_view : nat; d_last_ordered : key; d_preprepared : list key;
  d_sent : list message (* [sent_preprepares] *); d_prepares : votes; d_commits : votes }.

Definition stash := option (nat * nat * nat).
Definition requests := list ((kind * key) * stash).
Definition same (kk kk' : kind * key) : bool := kind_eqb (fst kk) (fst kk') && key_eqb (snd kk) (snd kk').
Fixpoint rget (kk : kind * key) (r : requests) : option stash :=
  match r with [] => None | (kk', s) :: r' => if same kk' kk then Some s else rget kk r' end.
Definition rdel (p : kind * key -> bool) (r : requests) : requests := filter (fun x => negb (p (fst x))) r.

Record state := State { s_data : shared; s_requests : requests }.
Definition init (d : shared) : state := State d [].

(** Parameters of a request and of its reply: instance, view, sequence number (if it is a number) *)
Record params := Params { p_inst : nat; p_view : nat; p_seq : option nat }.

(** What comes in a reply: nothing (null), something that is no message of this kind, or one *)
Inductive content := Null | Malformed | Good (m : message).

Inductive event :=
| EMissing (inst : nat) (k : kind) (x : key) (s : stash)            (* MissingMessage *)
| EReq (k : kind) (p : params) (frm : name)                         (* MessageReq *)
| ERep (k : kind) (p : params) (c : content) (frm : name)           (* MessageRep *)
| EOrdered (x : key)                                                (* Ordered *)
| EViewChange                                                       (* ViewChangeStarted *)
| EStable (x : key)                                                 (* CheckpointStabilized *)
| EVote (k : kind) (m : message) (voter : name)                     (* a Prepare or Commit is counted *)
| ESent (m : message)                                               (* a PrePrepare is sent *)
| EForget (xs : list key)                                           (* messages of batches are dropped *)
| EProgress (view : nat) (last : key) (pps : list key).             (* the ordering service moves on *)

Inductive output :=
| OReq (k : kind) (p : params)                          (* sent *)
| ORep (k : kind) (p : params) (m : message) (to : name)  (* sent *)
| ODeliver (k : kind) (m : message) (frm : name).        (* handled as if received from [frm] *)

(** message_handlers.py:106-110 [_validate_message_req] *)
Definition validate_message_req (d : shared) (p : params) : bool :=
  (p_inst p =? d_inst d) && (p_view p =? d_view d) && match p_seq p with Some n => 0 <? n | None => false end.

(** 160-162, 177-183, 189-195 [_get_reply] *)
Definition counted (x : key) (me : name) (d : votes) : option message :=
  match vget x d with
  | Some (m, vs) => if existsb (Nat.eqb me) vs then Some m else None
  | None => None
  end.
Definition get_reply (d : shared) (k : kind) (x : key) : option message :=
  match k with
  | KPrePrepare => find (fun m => key_eqb (m_key m) x) (d_sent d)
  | KPrepare => counted x (d_name d) (d_prepares d)
  | KCommit => counted x (d_name d) (d_commits d)
  end.

(** 112-118 [_create], then 120-146 [_validate_message_rep], for PrePrepare also 164-171; None: the
    reply is discarded *)
Definition extract_message (st : state) (k : kind) (p : params) (m : message) : option message :=
  if negb ((m_inst m =? p_inst p) && (fst (m_key m) =? p_view p) &&
           match p_seq p with Some n => snd (m_key m) =? n | None => false end) then None
  else match rget (k, m_key m) (s_requests st) with
       | None => None
       | Some expected =>
           if not_after (m_key m) (d_last_ordered (s_data st)) then None
           else if negb (match expected with
                         | None => true
                         | Some e => match k with KCommit => false | _ => data_eqb (m_data m) e end
                         end) then None
           else if match k with KPrePrepare => existsb (key_eqb (m_key m)) (d_preprepared (s_data st)) | _ => false end then None
           else Some m
       end.

Definition with_data (st : state) (d : shared) : state := State d (s_requests st).
Definition with_requests (st : state) (r : requests) : state := State (s_data st) r.

Definition set_votes (d : shared) (p c : votes) : shared :=
  Shared (d_name d) (d_inst d) (d_view d) (d_last_ordered d) (d_preprepared d) (d_sent d) p c.
Definition set_sent (d : shared) (l : list message) : shared :=
  Shared (d_name d) (d_inst d) (d_view d) (d_last_ordered d) (d_preprepared d) l (d_prepares d) (d_commits d).

Definition step (st : state) (e : event) : state * list output :=
  let d := s_data st in
  match e with
  (* message_req_service.py:101-122, message_handlers.py:93-104 *)
  | EMissing inst k x s =>
      if negb (inst =? d_inst d) then (st, [])
      else match rget (k, x) (s_requests st) with
           | Some _ => (st, [])
           | None => (with_requests st (((k, x), s) :: s_requests st), [OReq k (Params (d_inst d) (fst x) (Some (snd x)))])
           end
  (* message_req_service.py:47-74, message_handlers.py:70-80 *)
  | EReq k p frm =>
      if validate_message_req d p then
        match p_seq p with
        | Some n => match get_reply d k (p_view p, n) with
                    | Some m => (st, [ORep k p m frm])
                    | None => (st, [])
                    end
        | None => (st, [])
        end
      else (st, [])
  (* node.py:3237-3242 [route_message_rep]: to the replica of this instance; message_req_service.py:76-99 *)
  | ERep k p c frm =>
      if negb (p_inst p =? d_inst d) then (st, []) else
      match c with
      | Good m => match extract_message st k p m with Some m' => (st, [ODeliver k m' frm]) | None => (st, []) end
      | _ => (st, [])
      end
  (* 124-128 *)
  | EOrdered x => (with_requests st (rdel (fun kk => key_eqb (snd kk) x) (s_requests st)), [])
  (* 130-132 *)
  | EViewChange => (with_requests st [], [])
  (* 134-140 *)
  | EStable x => (with_requests st (rdel (fun kk => not_after (snd kk) x) (s_requests st)), [])
  (* models.py: Prepares.addVote, Commits.addVote *)
  | EVote k m voter =>
      (with_data st (match k with
                     | KPrePrepare => d
                     | KPrepare => set_votes d (add_msg m voter (d_prepares d)) (d_commits d)
                     | KCommit => set_votes d (d_prepares d) (add_msg m voter (d_commits d))
                     end), [])
  | ESent m => (with_data st (set_sent d (m :: d_sent d)), [])
  (* ordering_service.py [gc] and [process_view_change_started] *)
  | EForget xs =>
      let out {A} (f : A -> key) (l : list A) := filter (fun a => negb (existsb (key_eqb (f a)) xs)) l in
      (with_data st (Shared (d_name d) (d_inst d) (d_view d) (d_last_ordered d) (d_preprepared d)
        (out m_key (d_sent d)) (out fst (d_prepares d)) (out fst (d_commits d))), [])
  | EProgress view last pps =>
      (with_data st (Shared (d_name d) (d_inst d) view last pps (d_sent d) (d_prepares d) (d_commits d)), [])
  end.

Definition run (st : state) (es : list event) : state * list output :=
  fold_left (fun so e => (fst (step (fst so) e), snd so ++ snd (step (fst so) e))) es (st, []).
