(** Model of plenum/server/consensus/ordering_service_msg_validator.py: what to do with an
    incoming three phase message, given the replica's shared data. *)
From Coq Require Import List Arith Bool.
Import ListNotations.

(** replica_validator_enums.py and stashing_router.py: verdicts *)
Inductive verdict :=
| DISCARD | PROCESS | STASH_VIEW_3PC | STASH_CATCH_UP | STASH_WATERMARKS
| STASH_WAITING_FIRST_BATCH_IN_VIEW.

(** The part of ConsensusSharedData (consensus_shared_data.py:27-100) the validator reads.
    [is_participating] is the property at 151-153. *)
Record vdata := VData {
  d_inst : nat; d_is_master : bool; d_view : nat; d_waiting_for_new_view : bool;
  d_participating : bool; d_low : nat; d_high : nat; d_last_ordered : nat * nat;
  d_prev_cert : nat }.

(** util.py:618-629 [compare_3PC_keys]: only the pp_seq_no parts are compared; the result is
    their difference, an integer.  [le_3pc a b] is [compare_3PC_keys(a, b) >= 0]. *)
Definition le_3pc (key1 key2 : nat * nat) : bool := snd key1 <=? snd key2.
(** [compare_3PC_keys(a, b) > 0] *)
Definition lt_3pc (key1 key2 : nat * nat) : bool := snd key1 <? snd key2.

(** ordering_service_msg_validator.py:172-174 [has_already_ordered] *)
Definition has_already_ordered (last_ordered : nat * nat) (view_no pp_seq_no : nat) : bool :=
  le_3pc (view_no, pp_seq_no) last_ordered.

(** ordering_service_msg_validator.py:152-170 [_validate_base] *)
Definition validate_base (d : vdata) (view_no : nat) : verdict :=
  if view_no <? d_view d then DISCARD
  else if d_view d <? view_no then STASH_VIEW_3PC
  else if negb (d_participating d) then STASH_CATCH_UP
  else PROCESS.

(** ordering_service_msg_validator.py:105-150 [_validate_3pc].  The message schemas
    (node_messages.py) make instId, viewNo and ppSeqNo mandatory non-negative numbers, so the
    tests for None are left out. *)
Definition validate_3pc (d : vdata) (inst_id view_no pp_seq_no : nat) : verdict :=
  if negb (inst_id =? d_inst d) then DISCARD
  else if pp_seq_no =? 0 then DISCARD
  else if pp_seq_no <=? d_low d then DISCARD
  else match validate_base d view_no with
  | PROCESS =>
      if d_waiting_for_new_view d then STASH_VIEW_3PC
      else if d_high d <? pp_seq_no then STASH_WATERMARKS
      else if has_already_ordered (d_last_ordered d) view_no pp_seq_no
              && (d_prev_cert d <? pp_seq_no) then DISCARD
      else if (0 <? view_no) && (S (d_prev_cert d) <? pp_seq_no)
              && (snd (d_last_ordered d) <? S (d_prev_cert d)) then STASH_WAITING_FIRST_BATCH_IN_VIEW
      else PROCESS
  | r => r
  end.

(** 38-62: PrePrepares, Prepares and Commits are all validated by [_validate_3pc]; 64-67 *)
Definition validate_new_view (d : vdata) (view_no : nat) : verdict := validate_base d view_no.

(** 69-84 [validate_old_view_prep_prepare_req] *)
Definition validate_old_pp_req (d : vdata) (inst_id : nat) : verdict :=
  if negb (inst_id =? d_inst d) then DISCARD
  else if negb (d_is_master d) then DISCARD
  else if negb (d_participating d) then STASH_CATCH_UP
  else PROCESS.

(** 86-103 [validate_old_view_prep_prepare_rep] *)
Definition validate_old_pp_rep (d : vdata) (inst_id : nat) : verdict :=
  if negb (inst_id =? d_inst d) then DISCARD
  else if negb (d_is_master d) then DISCARD
  else if d_waiting_for_new_view d then STASH_VIEW_3PC
  else if negb (d_participating d) then STASH_CATCH_UP
  else PROCESS.
