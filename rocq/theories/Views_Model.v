(** Several views of a pool: what each correct node does in each view (the ordering service of
    Tpc_Model.v), what it remembers of earlier views and puts into its ViewChange messages
    (ViewChange_Model.v), and the NewView messages it accepts (NewView_Model.v).

    plenum/server/consensus/view_change_service.py, ordering_service.py, checkpoint_service.py *)
From Coq Require Import List Arith Bool Lia.
From Verif Require Import Quorum_Model Validator_Model NewView_Model Tpc_Model.
From Verif Require Dict ViewChange_Model.
Import ListNotations.

(** A NewView that a node accepted (view_change_service.py:255-312): its checkpoint, its batches
    and the ViewChange messages it names, with their senders. *)
Record accepted := Accepted {
  nv_cp : cp_msg; nv_batches : list batch_id; nv_vcs : list (node * view_change_msg) }.

(** What one node does in one view: the parameters and the state when ordering starts, the
    events it handles, the checkpoints it has at the end, and the NewView that opened the view
    (none in view 0, and none if the node leaves the view before it has a NewView; a view that a
    node skips is such a view too). *)
Record stay := Stay {
  s_cfg : config; s_start : replica; s_events : list event; s_cps : list cp_msg;
  s_new_view : option accepted }.

(** [views]: how many views are looked at. *)
Record system := System {
  all_nodes : list node; faulty_nodes : list node; log : nat; views : nat;
  stays : node -> nat -> stay }.

(** the state of a node at the end of a view, and what it sent and ordered in the view *)
Definition last_state (S : system) (x : node) (v : nat) : replica :=
  fst (run (s_cfg (stays S x v)) (s_start (stays S x v)) (s_events (stays S x v))).
Definition sent (S : system) (x : node) (v : nat) : list output :=
  snd (run (s_cfg (stays S x v)) (s_start (stays S x v)) (s_events (stays S x v))).

(** view_change_service.py:136-160: the batches which a node remembers ([_old_prepared],
    [_old_preprepared]) when it has built its ViewChange for view [v]: those of the view before
    are added to those of all earlier views above the stable checkpoint. *)
Fixpoint memory (S : system) (x : node) (v : nat) : Dict.dict batch_id * Dict.dict (list batch_id) :=
  match v with
  | 0 => ([], [])
  | S u =>
      let st := last_state S x u in
      (ViewChange_Model.add_prepared (ViewChange_Model.clear_old (r_low st) (fst (memory S x u))) (r_prepared st),
       ViewChange_Model.add_preprepared (ViewChange_Model.clear_old (r_low st) (snd (memory S x u))) (r_preprepared st))
  end.

(** view_change_service.py:141-160 [_build_view_change_msg] for view [v] *)
Definition view_change_of (S : system) (x : node) (v : nat) : view_change_msg :=
  ViewChange v (r_low (last_state S x (v - 1)))
    (sorted (map snd (fst (memory S x v)))) (sorted (flat_map snd (snd (memory S x v))))
    (s_cps (stays S x (v - 1))).

(** The state in which a node starts the next view when neither a catch-up nor a new stable
    checkpoint came between: ordering_service.py:2332-2352 [process_view_change_started] (lists
    of the shared data, unordered batches reverted down to the last ordered one, messages of the
    three phases and old entries of [ordered] forgotten), view_change_service.py:314-319
    [_finish_view_change] (not waiting any more, the last batch of the NewView remembered). *)
Definition enter_view (v cert : nat) (st : replica) : replica :=
  {| r_view := v; r_low := r_low st; r_high := r_high st; r_waiting := false; r_participating := true;
     r_last_ordered := r_last_ordered st; r_prev_cert := cert; r_sent := []; r_pps := []; r_prepares := [];
     r_commits := []; r_prep_wait := r_prep_wait st; r_comm_wait := r_comm_wait st; r_stashed := r_stashed st;
     r_ordered := filter (fun k => v <=? fst k) (r_ordered st); r_last_pp := snd (r_last_ordered st);
     r_preprepared := []; r_prepared := [] |}.
