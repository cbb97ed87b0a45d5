(** Model of plenum/server/view_change/instance_change_provider.py (whole) and of
    plenum/server/consensus/view_change_trigger_service.py (whole): votes for a view change. *)
From Coq Require Import List Arith ZArith Bool.
From Verif Require Import Quorum_Model.
Import ListNotations.

(** Python dicts with number keys (view numbers; voters, the names of nodes; this node is [0]) *)
Definition dict (V : Type) := list (nat * V).
Fixpoint get {V} (k : nat) (d : dict V) : option V :=
  match d with [] => None | (k', v) :: d' => if k =? k' then Some v else get k d' end.
Fixpoint set {V} (k : nat) (v : V) (d : dict V) : dict V :=
  match d with [] => [(k, v)] | (k', v') :: d' => if k =? k' then (k, v) :: d' else (k', v') :: set k v d' end.
Definition del {V} (k : nat) (d : dict V) : dict V := filter (fun x => negb (fst x =? k)) d.

(** instance_change_provider.py:11-13 [Vote] *)
Record vote := Vote { timestamp : Z; reason : Z }.
Definition cache := dict (dict vote).

(** 16-20 [InstanceChangeCache.add] *)
Definition cache_add (view voter : nat) (v : vote) (c : cache) : cache :=
  set view (set voter v (match get view c with Some d => d | None => [] end)) c.
(** 22-27 [remove_vote] *)
Definition remove_vote (view voter : nat) (c : cache) : cache :=
  match get view c with
  | None => c
  | Some d => match get voter d with
              | None => c
              | Some _ => match del voter d with [] => del view c | d' => set view d' c end
              end
  end.

(** What happened, for the statements only. *)
Inductive entry :=
| LVote (view voter : nat) (time : Z)   (* a vote is recorded *)
| LSend (view : nat)                    (* this node sends an InstanceChange *)
| LStart (view : nat) (time : Z)        (* the view change is asked for (NodeNeedViewChange) *)
| LForget (view : nat)                  (* votes for views up to [view] are forgotten *)
| LView (view : nat)                    (* the node is in that view from now on *)
| LPool (n : nat).                      (* the pool has [n] validators from now on *)

(** [db]: what the status store holds under the instance_change_ keys. *)
Record state := State { view_no : nat; nodes : nat; ic : cache; db : cache; log : list entry }.
Definition init (n : nat) : state := State 0 n [] [] [].
Definition note (x : entry) (s : state) : state := State (view_no s) (nodes s) (ic s) (db s) (log s ++ [x]).

(** 93-101 [_update_db_from_cache].  The serializer (JSON) is not modelled: the store gives back the
    votes which were put. *)
Definition update_db (view : nat) (s : state) : state :=
  State (view_no s) (nodes s) (ic s)
    (match get view (ic s) with
     | None | Some [] => del view (db s)
     | Some d => set view d (db s)
     end) (log s).

(** 78-91 [_update_votes]; the loop goes over a copy.  [now]: the clock is read again for every
    vote; modelled by one reading. *)
Section Trigger.
Variable window : Z. (* OUTDATED_INSTANCE_CHANGES_CHECK_INTERVAL *)
Fixpoint drop_outdated (now : Z) (view : nat) (votes : dict vote) (c : cache) : cache * bool :=
  match votes with
  | [] => (c, false)
  | (voter, v) :: votes' =>
      if (timestamp v <? now - window)%Z then (fst (drop_outdated now view votes' (remove_vote view voter c)), true)
      else drop_outdated now view votes' c
  end.
Definition update_votes (now : Z) (view : nat) (s : state) : state :=
  if (window <=? 0)%Z then s
  else match get view (ic s) with
  | None => s
  | Some d =>
      let '(c, changed) := drop_outdated now view d (ic s) in
      let s := State (view_no s) (nodes s) c (db s) (log s) in
      if changed then update_db view s else s
  end.

(** 42-49 [add_vote] *)
Definition add_vote (now : Z) (view voter : nat) (why : Z) (s : state) : state :=
  note (LVote view voter now)
    (update_db view (State (view_no s) (nodes s) (cache_add view voter (Vote now why) (ic s)) (db s) (log s))).
(** 55-57 [has_inst_chng_from] *)
Definition has_inst_chng_from (now : Z) (view voter : nat) (s : state) : state * bool :=
  let s := update_votes now view s in
  (s, match get view (ic s) with Some d => match get voter d with Some _ => true | None => false end | None => false end).
(** 59-61 [has_quorum] *)
Definition has_quorum (now : Z) (view quorum : nat) (s : state) : state * bool :=
  let s := update_votes now view s in
  (s, match get view (ic s) with Some d => quorum <=? length d | None => false end).
(** 63-69 [remove_view].  The loop over the sorted views stops at the first greater one. *)
Definition remove_view (view : nat) (s : state) : state :=
  note (LForget view)
    (State (view_no s) (nodes s) (filter (fun x => view <? fst x) (ic s))
       (filter (fun x => (view <? fst x) || negb (match get (fst x) (ic s) with Some _ => true | None => false end)) (db s)) (log s)).
(** 103-131 [_fill_cache_by_db]; the types of what is stored are those of what was put *)
Definition fill_cache (d : cache) : cache :=
  fold_left (fun c x => fold_left (fun c y => cache_add (fst x) (fst y) (snd y) c) (snd x) c) d [].

(** view_change_trigger_service.py:140-146 [_can_view_change], 128-138 [_try_start_view_change_by_instance_change] *)
Definition try_start (now : Z) (view : nat) (s : state) : state :=
  let '(s, q) := has_quorum now view (view_change (Quorums (nodes s))) s in
  if negb q then s
  else if negb (view_no s <? view) then s
  else note (LStart view now) s.
(** 120-126 [_on_verified_instance_change_msg] *)
Definition on_verified (now : Z) (view voter : nat) (why : Z) (s : state) : state :=
  let '(s, has) := has_inst_chng_from now view voter s in
  if has then s
  else
    let s := add_vote now view voter why s in
    if view_no s <? view then try_start now view s else s.
(** 112-118 [_send_instance_change] *)
Definition send_instance_change (now : Z) (view : nat) (why : Z) (s : state) : state :=
  on_verified now view 0 why (note (LSend view) s).
(** 76-107 [process_instance_change].  [connected]: frm is in network.connecteds; [participating]:
    data.is_participating (else the message is stashed); [degraded]: is_master_degraded() *)
Definition process_instance_change (now : Z) (view : nat) (why : Z) (frm : nat) (connected participating degraded : bool) (s : state) : state :=
  if negb connected then s
  else if negb participating then s
  else if view <=? view_no s then s
  else
    let s := on_verified now view frm why s in
    let '(s, has) := has_inst_chng_from now view 0 s in
    if has then s
    else if negb degraded then s
    else send_instance_change now view 26 s.
(** 63-74 [process_vote_for_view_change]; [sigs]: the suspicion is STATE_SIGS_ARE_NOT_UPDATED,
    [waiting]: data.waiting_for_new_view, [asked]: msg.view_no *)
Definition process_vote (now : Z) (sigs waiting : bool) (asked : option nat) (why : Z) (s : state) : state :=
  let proposed := if negb sigs || negb waiting then view_no s + 1 else view_no s in
  let proposed := match asked with Some v => v | None => proposed end in
  send_instance_change now proposed why s.

Inductive op :=
| OInstanceChange (now : Z) (view : nat) (why : Z) (frm : nat) (connected participating degraded : bool)
| OVoteFor (now : Z) (sigs waiting : bool) (asked : option nat) (why : Z)
| OView (view : nat)     (* another service sets data.view_no *)
| OAccepted              (* 109-110: NewViewAccepted *)
| ORestart (view : nat)  (* a new process over the same store, in view [view] *)
| OPool (n : nat).
Definition step (s : state) (o : op) : state :=
  match o with
  | OInstanceChange now v why frm a b c => process_instance_change now v why frm a b c s
  | OVoteFor now a b asked why => process_vote now a b asked why s
  | OView v => note (LView v) (State v (nodes s) (ic s) (db s) (log s))
  | OAccepted => remove_view (view_no s) s
  | ORestart v => note (LView v) (State v (nodes s) (fill_cache (db s)) (db s) (log s))
  | OPool n => note (LPool n) (State (view_no s) n (ic s) (db s) (log s))
  end.
Definition run (n : nat) (ops : list op) : state := fold_left step ops (init n).
End Trigger.
