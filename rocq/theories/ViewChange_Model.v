(** Model of the view change protocol of the master instance:
    - plenum/server/consensus/view_change_service.py:28-355 [ViewChangeService]
      (the NewViewBuilder, 358-487, is NewView_Model.v);
    - plenum/server/consensus/view_change_storages.py, whole;
    - plenum/server/consensus/message_request/message_handlers.py:194-323 [ViewChangeHandler],
      [NewViewHandler], and message_req_service.py:75-110, 118-120;
    - the view number set after catch-up, plenum/server/node.py:1829-1872.

    Nodes are numbers.  In the code the sender of a message is a replica name ("Alpha:0") and votes
    are kept under node names ("Alpha"); the conversion is not modelled.  Backup instances only set
    their view and forget their primary (87-89); they are not modelled. *)
From Coq Require Import List Arith Bool.
From Verif Require Import Quorum_Model NewView_Model Dict.
Import ListNotations.

(** node_messages.py [NewView] (viewNo, viewChanges, checkpoint, batches, optional primary);
    viewChanges: pairs of a node and the digest of its ViewChange *)
Record new_view_msg := NewView {
  nw_view : nat; nw_vcs : list (nat * nat); nw_cp : cp_msg; nw_batches : list batch_id;
  nw_primary : option nat }.

(** consensus_shared_data.py: the part of the shared data the service reads and writes *)
Record shared := Shared {
  view : nat; waiting : bool; primary : option nat; nodes : nat;
  stable : nat; cps : list cp_msg; prepared : list batch_id; preprepared : list batch_id;
  prev_cert : option nat }.

(** What happened, for the statements only. *)
Inductive entry :=
| LStart (v p : nat)                        (* view change to [v] begins, expected primary [p] *)
| LCatchup (v p : nat)                      (* after catch-up the view is [v], the primary [p] *)
| LPool (n : nat)                           (* the pool has [n] validators from now on *)
| LSentVC (m : view_change_msg) (d : shared) (* own ViewChange broadcast, the shared data being [d] *)
| LVC (m : view_change_msg) (x : nat)       (* ViewChange of node [x] processed *)
| LSentAck (x d : nat)                      (* acknowledged to the primary *)
| LAck (x d y : nat)                        (* [y]'s acknowledgement of [x]'s ViewChange processed *)
| LSentNV (nv : new_view_msg)               (* own NewView broadcast *)
| LNV (nv : new_view_msg) (x : nat)         (* NewView sent by [x] processed *)
| LAccept (nv : new_view_msg)               (* view change finished (NewViewAccepted) *)
| LPropose                                  (* vote for the next view (VoteForViewChange) *)
| LStashed (v x : nat)                      (* ViewChange for the future view [v] from [x] put aside *)
| LAsk (v : nat)                            (* a view change to [v] asked for (NodeNeedViewChange) *)
| LReqVC (x d : nat)                        (* [x]'s ViewChange with digest [d] requested *)
| LRepVC (x d y : nat)                      (* [y] replied with [x]'s ViewChange with digest [d] *)
| LReqNV (v : nat)                          (* the NewView of view [v] requested *)
| LError.                                   (* AttributeError *)

(** view_change_storages.py:19-28 [ViewChangeVotesForNode]; [_digest] is always the digest of
    [_view_change], [acks]: digest -> who acknowledged it *)
Record node_vote := NodeVote { vote_msg : option view_change_msg; acks : dict (list nat) }.
(** 150-158 [NewViewVotesForView]: digest -> message and who sent it; the quorumed message *)
Record nv_store := NvStore { nv_votes : dict (new_view_msg * list nat); nv_quorumed : option new_view_msg }.

Record state := State {
  data : shared;
  old_prepared : dict batch_id; old_preprepared : dict (list batch_id);
  votes : dict node_vote; new_views : nv_store;
  stashed_vc_msgs : dict nat; last_completed : nat;
  requested_vc : list (nat * nat); received_vc : list (nat * nat * nat); requested_nv : list nat;
  log : list entry }.

Definition init (v n p : nat) : state :=
  State (Shared v false (Some p) n 0 [] [] [] None) [] [] [] (NvStore [] None) [] v [] [] [] [].

Definition set_data (d : shared) (s : state) : state :=
  State d (old_prepared s) (old_preprepared s) (votes s) (new_views s) (stashed_vc_msgs s) (last_completed s)
    (requested_vc s) (received_vc s) (requested_nv s) (log s).
Definition set_old (a : dict batch_id) (b : dict (list batch_id)) (s : state) : state :=
  State (data s) a b (votes s) (new_views s) (stashed_vc_msgs s) (last_completed s)
    (requested_vc s) (received_vc s) (requested_nv s) (log s).
Definition set_votes (v : dict node_vote) (s : state) : state :=
  State (data s) (old_prepared s) (old_preprepared s) v (new_views s) (stashed_vc_msgs s) (last_completed s)
    (requested_vc s) (received_vc s) (requested_nv s) (log s).
Definition set_new_views (v : nv_store) (s : state) : state :=
  State (data s) (old_prepared s) (old_preprepared s) (votes s) v (stashed_vc_msgs s) (last_completed s)
    (requested_vc s) (received_vc s) (requested_nv s) (log s).
Definition set_stashed (c : dict nat) (s : state) : state :=
  State (data s) (old_prepared s) (old_preprepared s) (votes s) (new_views s) c (last_completed s)
    (requested_vc s) (received_vc s) (requested_nv s) (log s).
Definition set_completed (v : nat) (s : state) : state :=
  State (data s) (old_prepared s) (old_preprepared s) (votes s) (new_views s) (stashed_vc_msgs s) v
    (requested_vc s) (received_vc s) (requested_nv s) (log s).
Definition set_requests (a : list (nat * nat)) (b : list (nat * nat * nat)) (c : list nat) (s : state) : state :=
  State (data s) (old_prepared s) (old_preprepared s) (votes s) (new_views s) (stashed_vc_msgs s) (last_completed s)
    a b c (log s).
Definition note (x : entry) (s : state) : state :=
  State (data s) (old_prepared s) (old_preprepared s) (votes s) (new_views s) (stashed_vc_msgs s) (last_completed s)
    (requested_vc s) (received_vc s) (requested_nv s) (log s ++ [x]).

Section Service.
Variable me : nat.
Variable dg : view_change_msg -> nat.  (* view_change_storages.py:12-16: sha256 of the JSON text *)
Variable nvdg : new_view_msg -> nat.   (* 188-190: the same for NewView *)
Variable log_size : nat.               (* LOG_SIZE *)

(** consensus_shared_data.py:100-109 [set_validators] makes the quorums of the current number of
    validators and hands them to both stores and to all votes in them *)
Definition quorums_of (s : state) : quorums := Quorums (nodes (data s)).

(** ** view_change_storages.py *)
(** 129-132 [_get_vote]: an absent vote is created *)
Definition vote_of (x : nat) (vs : dict node_vote) : node_vote := get_or x (NodeVote None []) vs.
Definition acks_for (d : nat) (v : node_vote) : list nat := get_or d [] (acks v).
(** 44-52 [is_confirmed] (the default dict also gets an empty entry, which nothing reads) *)
Definition is_confirmed (q : quorums) (v : node_vote) : bool :=
  match vote_msg v with
  | None => false
  | Some m => is_reached (view_change_ack q) (length (acks_for (dg m) v))
  end.
(** 54-63, 107-112 [add_view_change]; the returned boolean is used by nobody *)
Definition add_view_change (m : view_change_msg) (x : nat) (vs : dict node_vote) : dict node_vote :=
  let v := vote_of x vs in
  set x (match vote_msg v with None => NodeVote (Some m) (acks v) | Some _ => v end) vs.
(** 65-70, 114-119 [add_view_change_ack] *)
Definition add_ack (x d y : nat) (vs : dict node_vote) : dict node_vote :=
  let v := vote_of x vs in
  set x (NodeVote (vote_msg v) (set d (add y (acks_for d v)) (acks v))) vs.
(** 97-100 [confirmed_votes] *)
Definition confirmed_votes (q : quorums) (vs : dict node_vote) : list (nat * nat) :=
  flat_map (fun '(x, v) =>
    match vote_msg v with Some m => if is_confirmed q v then [(x, dg m)] else [] | None => [] end) vs.
(** 102-105 [get_view_change]; the creation of the absent vote is [touch] *)
Definition get_view_change (x d : nat) (vs : dict node_vote) : option view_change_msg :=
  match vote_msg (vote_of x vs) with
  | Some m => if dg m =? d then Some m else None
  | None => None
  end.
Definition touch (x : nat) (vs : dict node_vote) : dict node_vote := set x (vote_of x vs) vs.

(** 192-197 [add_new_view] *)
Definition add_new_view (q : quorums) (nv : new_view_msg) (x : nat) (st : nv_store) : nv_store :=
  let '(m, xs) := get_or (nvdg nv) (nv, []) (nv_votes st) in
  let xs := add x xs in
  NvStore (set (nvdg nv) (m, xs) (nv_votes st))
    (if is_reached (strong q) (length xs) then Some nv else nv_quorumed st).
(** 173-176: the entry was received from the primary itself and from nobody else *)
Definition from_primary (p : option nat) (e : nat * (new_view_msg * list nat)) : bool :=
  let '(_, (m, xs)) := e in
  match xs, p, nw_primary m with
  | [x], Some p, None => x =? p
  | _, _, _ => false
  end.
(** 160-176 [get_new_view] *)
Definition get_new_view (p : option nat) (st : nv_store) : option new_view_msg :=
  match nv_quorumed st with
  | Some nv => Some nv
  | None => match find (from_primary p) (nv_votes st) with Some (_, (m, _)) => Some m | None => None end
  end.
(** consensus_shared_data.py:151-153 [new_view] *)
Definition new_view (s : state) : option new_view_msg := get_new_view (primary (data s)) (new_views s).

(** ** Message requests *)
(** message_handlers.py:64-67 [prepare_msg_to_request], message_req_service.py:92-108 *)
Definition pair_eqb (a b : nat * nat) : bool := (fst a =? fst b) && (snd a =? snd b).
Definition request_vc (x d : nat) (s : state) : state :=
  note (LReqVC x d)
    (set_requests (if existsb (pair_eqb (x, d)) (requested_vc s) then requested_vc s else requested_vc s ++ [(x, d)])
       (received_vc s) (requested_nv s) s).
Definition request_nv (v : nat) (s : state) : state :=
  note (LReqNV v) (set_requests (requested_vc s) (received_vc s) (add v (requested_nv s)) s).

(** ** view_change_service.py *)
(** 340-341 [_propose_view_change]: the vote itself is Trigger_Model.v *)
Definition propose (s : state) : state := note LPropose s.

(** 314-333 [_finish_view_change] *)
Definition finish (s : state) : state :=
  let d := data s in
  let s := set_data (Shared (view d) false (primary d) (nodes d) (stable d) (cps d) (prepared d) (preprepared d) (prev_cert d)) s in
  match new_view s with
  | None => note LError s
  | Some nv =>
      let s := set_data (Shared (view d) false
                           (match nw_primary nv with Some p => Some p | None => primary d end)
                           (nodes d) (stable d) (cps d) (prepared d) (preprepared d)
                           (Some (prev_view_prepare_cert (nw_cp nv) (nw_batches nv)))) s in
      set_completed (view d) (note (LAccept nv) s)
  end.

(** 266: [sorted(confirmed_votes, key=itemgetter(0))]; a stable insertion sort *)
Fixpoint insert_by (x : nat * nat) (l : list (nat * nat)) : list (nat * nat) :=
  match l with
  | [] => [x]
  | y :: l' => if fst x <=? fst y then x :: l else y :: insert_by x l'
  end.
Fixpoint sort_by (l : list (nat * nat)) : list (nat * nat) :=
  match l with [] => [] | x :: l' => insert_by x (sort_by l') end.

(** 249: the messages of the confirmed votes (each is there, with its digest) *)
Definition messages (vs : dict node_vote) (l : list (nat * nat)) : list view_change_msg :=
  flat_map (fun '(x, d) => match get_view_change x d vs with Some m => [m] | None => [] end) l.

(** 242-273 [_send_new_view_if_needed] *)
Definition send_new_view_if_needed (s : state) : state :=
  let q := quorums_of s in
  let cv := confirmed_votes q (votes s) in
  if is_reached (view_change q) (length cv) then
    let vcs := messages (votes s) cv in
    match calc_checkpoint q vcs with
    | None => s
    | Some cp =>
        match calc_batches q log_size cp vcs with
        | None => s
        | Some batches =>
            if cp_mem cp (cps (data s)) then
              let nv := NewView (view (data s)) (sort_by cv) cp batches None in
              let s := note (LSentNV nv) s in
              finish (set_new_views (add_new_view q nv me (new_views s)) s)
            else s
        end
    end
  else s.

(** 279-286: the listed messages, or the first which is missing *)
Fixpoint collect (vs : dict node_vote) (l : list (nat * nat)) : list view_change_msg * option (nat * nat) :=
  match l with
  | [] => ([], None)
  | (x, d) :: l' =>
      match get_view_change x d vs with
      | None => ([], Some (x, d))
      | Some m => let '(ms, miss) := collect vs l' in (m :: ms, miss)
      end
  end.

(** 275-312 [_finish_view_change_if_needed] *)
Definition finish_if_needed (s : state) : state :=
  match new_view s with
  | None => s
  | Some nv =>
      match collect (votes s) (nw_vcs nv) with
      | (_, Some (x, d)) => request_vc x d (set_votes (touch x (votes s)) s)
      | (vcs, None) =>
          if new_view_valid (quorums_of s) log_size vcs (nw_cp nv) (nw_batches nv) then finish s else propose s
      end
  end.

(** 223-240 [_validate] *)
Inductive verdict := PROCESS | DISCARD | STASH_CATCH_UP | STASH_WAITING_VIEW_CHANGE.
Definition validate (v : nat) (participating : bool) (s : state) : verdict :=
  if v <? view (data s) then DISCARD
  else if (v =? view (data s)) && negb (waiting (data s)) then DISCARD
  else if negb participating then STASH_CATCH_UP
  else if view (data s) <? v then STASH_WAITING_VIEW_CHANGE
  else PROCESS.

(** consensus_shared_data.py [is_primary] *)
Definition is_primary (s : state) : bool := match primary (data s) with Some p => p =? me | None => false end.

(** 162-193 [process_view_change_message].  With no primary (never while the node participates)
    [replica_name_to_node_name] gives [None] and the acknowledgement goes nowhere. *)
Definition process_view_change (m : view_change_msg) (x : nat) (participating : bool) (s : state) : state :=
  match validate (vc_view m) participating s with
  | STASH_WAITING_VIEW_CHANGE =>
      let c := S (get_or (vc_view m) 0 (stashed_vc_msgs s)) in
      let s := note (LStashed (vc_view m) x) (set_stashed (set (vc_view m) c (stashed_vc_msgs s)) s) in
      if is_reached (view_change (quorums_of s)) c && negb (waiting (data s)) then note (LAsk (vc_view m)) s else s
  | PROCESS =>
      let s := note (LVC m x) (set_votes (add_ack x (dg m) me (add_view_change m x (votes s))) s) in
      if is_primary s then send_new_view_if_needed s else finish_if_needed (note (LSentAck x (dg m)) s)
  | _ => s
  end.

(** 195-207 [process_view_change_ack_message] *)
Definition process_ack (v x d y : nat) (participating : bool) (s : state) : state :=
  match validate v participating s with
  | PROCESS =>
      if is_primary s then send_new_view_if_needed (note (LAck x d y) (set_votes (add_ack x d y (votes s)) s)) else s
  | _ => s
  end.

(** 209-221 [process_new_view_message] *)
Definition process_new_view (nv : new_view_msg) (x : nat) (participating : bool) (s : state) : state :=
  match validate (nw_view nv) participating s with
  | PROCESS =>
      finish_if_needed (note (LNV nv x) (set_new_views (add_new_view (quorums_of s) nv x (new_views s)) s))
  | _ => s
  end.

(** 136-139 [_clear_old_batches] *)
Definition clear_old {V} (stable : nat) (d : dict V) : dict V := filter (fun x => negb (fst x <=? stable)) d.

(** 141-160 [_build_view_change_msg] *)
Definition add_prepared (d : dict batch_id) (bids : list batch_id) : dict batch_id :=
  fold_left (fun d b => set (pp_seq_no b) b d) bids d.
Definition add_preprepared (d : dict (list batch_id)) (bids : list batch_id) : dict (list batch_id) :=
  fold_left (fun d b =>
    set (pp_seq_no b) (filter (fun c => negb (pp_digest c =? pp_digest b)) (get_or (pp_seq_no b) [] d) ++ [b]) d) bids d.
Definition build (s : state) : view_change_msg * state :=
  let op := add_prepared (old_prepared s) (prepared (data s)) in
  let opp := add_preprepared (old_preprepared s) (preprepared (data s)) in
  (ViewChange (view (data s)) (stable (data s)) (sorted (map snd op)) (sorted (flat_map snd opp)) (cps (data s)),
   set_old op opp s).

(** 71-128 [process_need_view_change].  [asks]: for this request and for those which it causes, the
    wanted view and the primary which the selector (C28) names for it.  When the primary stays the
    same, the node votes for the next view at once (105); if that vote completes a quorum, the next
    view change runs to its end in that call, and this one goes on after it.
    The ViewChangeStarted message makes the other services reset their data ([OData] below) and the
    message requests be forgotten (message_req_service.py:118-120).  process_all_stashed puts the
    stashed messages into the queue of the replica, from where they come as new operations. *)
Fixpoint need_view_change (asks : list (option nat * nat)) (s : state) : state :=
  match asks with
  | [] => s
  | (wanted, p) :: rest =>
      let d := data s in
      let v := match wanted with Some v => v | None => view d + 1 end in
      let s := set_old (clear_old (stable d) (old_prepared s)) (clear_old (stable d) (old_preprepared s)) s in
      let s := set_new_views (NvStore [] None) (set_votes [] s) in
      let s := set_data (Shared v true (Some p) (nodes d) (stable d) (cps d) (prepared d) (preprepared d) (prev_cert d)) s in
      let s := note (LStart v p) s in
      let s := match primary d with
               | Some old => if old =? p then need_view_change rest (propose s) else s
               | None => s
               end in
      let '(vc, s) := build s in
      let s := set_requests [] [] [] s in
      let s := note (LSentVC vc (data s)) s in
      let s := set_votes (add_view_change vc me (votes s)) s in
      set_stashed [] s
  end.

(** message_handlers.py:231-262 [ViewChangeHandler.extract_message]: a reply of [y], which claims to
    carry [x]'s ViewChange with digest [d].  [y] is a replica name and [x] a node name in the code,
    so that [frm != params["name"]] always holds there. *)
Definition process_vc_reply (m : view_change_msg) (x d y : nat) (participating : bool) (s : state) : state :=
  if negb (dg m =? d) then s
  else if negb (existsb (pair_eqb (x, d)) (requested_vc s)) then s
  else
    let rc := if existsb (fun e => pair_eqb (fst e) (x, d) && (snd e =? y)) (received_vc s)
              then received_vc s else received_vc s ++ [(x, d, y)] in
    let s := note (LRepVC x d y) (set_requests (requested_vc s) rc (requested_nv s) s) in
    let c := length (filter (fun e => pair_eqb (fst e) (x, d)) rc) in
    if negb (is_reached (weak (quorums_of s)) c) && negb (y =? x) then s
    else process_view_change m x participating
           (set_requests (filter (fun e => negb (pair_eqb e (x, d))) (requested_vc s)) rc (requested_nv s) s).

(** message_handlers.py:281-323 [NewViewHandler]: a reply of [y] to a request for view [v] *)
Definition process_nv_reply (nv : new_view_msg) (v y : nat) (participating : bool) (s : state) : state :=
  if negb (nw_view nv =? v) then s
  else match new_view s with
  | Some _ => s
  | None =>
      if negb (existsb (Nat.eqb (nw_view nv)) (requested_nv s)) then s
      else if nw_view nv <? view (data s) then s
      else process_new_view nv y participating s
  end.

(** 335-338 [_propose_view_change_not_complete_in_time] *)
Definition timeout (s : state) : state :=
  let s := propose s in
  match new_view s with None => request_nv (view (data s)) s | Some _ => s end.

Inductive op :=
| ONeed (asks : list (option nat * nat))
| OVC (m : view_change_msg) (x : nat) (participating : bool)
| OAck (v x d y : nat) (participating : bool)
| ONV (nv : new_view_msg) (x : nat) (participating : bool)
| ORepVC (m : view_change_msg) (x d y : nat) (participating : bool)
| ORepNV (nv : new_view_msg) (v y : nat) (participating : bool)
| OTimeout
| OData (stable : nat) (cps : list cp_msg) (prepared preprepared : list batch_id) (* the other services *)
| OPool (n : nat)                                                               (* set_validators *)
| OCatchup (audit_view : option nat) (p : nat).

Definition step (o : op) (s : state) : state :=
  let d := data s in
  match o with
  | ONeed asks => need_view_change asks s
  | OVC m x part => process_view_change m x part s
  | OAck v x d y part => process_ack v x d y part s
  | ONV nv x part => process_new_view nv x part s
  | ORepVC m x d y part => process_vc_reply m x d y part s
  | ORepNV nv v y part => process_nv_reply nv v y part s
  | OTimeout => timeout s
  | OData st c p pp => set_data (Shared (view d) (waiting d) (primary d) (nodes d) st c p pp (prev_cert d)) s
  | OPool n => note (LPool n) (set_data (Shared (view d) (waiting d) (primary d) n (stable d) (cps d) (prepared d) (preprepared d) (prev_cert d)) s)
  | OCatchup av p =>
      (* node.py:1829-1872: the view of the last transaction of the audit ledger, if there is one;
         the primaries are selected anew *)
      let v := match av with Some v => v | None => view d end in
      set_completed v (note (LCatchup v p)
        (set_data (Shared v (waiting d) (Some p) (nodes d) (stable d) (cps d) (prepared d) (preprepared d) (prev_cert d)) s))
  end.
Definition run (ops : list op) (s : state) : state := fold_left (fun s o => step o s) ops s.
End Service.
