(** When a node should vote against the primary, without the functions of the model. *)
From Coq Require Import List Arith ZArith Bool.
From Verif Require Import Validator_Model Suspect_Model.
From Verif Require Trigger_Model.
Import ListNotations.

(** A PrePrepare for the master instance which is taken up at all, and is not ordered yet. *)
Definition at_hand (r : replica) (p : pre_prepare) : Prop :=
  d_is_master (r_data r) = true /\ validate_3pc (r_data r) (p_inst p) (p_view p) (p_seq p) = PROCESS /\
  snd (d_last_ordered (r_data r)) < p_seq p.

(** The sender is the primary of the view the replica is in. *)
Definition is_primary (r : replica) (sender : nat) : Prop := r_primary r = Some sender.

(** Something is wrong with a batch when it is its turn: its multi-signatures, or what comes out
    when it is applied. *)
Definition bad_batch (f : facts) : Prop :=
  f_multisig f = false \/
  exists w, f_applied f = Some w /\ w <> NOT_FINAL /\ w <> WRONG_PRIMARIES.
(** Its turn: all before it is there, its requests are finalised and its pool state root is right. *)
Definition in_turn (f : facts) : Prop :=
  f_old f = false /\ f_unfinalised f = false /\ f_next f = true /\ f_pool_root f = true.
(** What the primary is blamed for when it sends a PrePrepare with the right digest for a new place:
    the time, a request which is ordered already, a bad batch. *)
Definition to_blame (f : facts) : Prop :=
  f_known f = false /\
  (f_time_ok f = false \/
   (f_old f = false /\ f_unfinalised f = true /\ f_ordered f = true) \/
   (in_turn f /\ bad_batch f)).

(** The digest is that of the content. *)
Definition right_digest (digest : list nat -> nat -> nat -> nat) (p : pre_prepare) : Prop :=
  p_digest p = digest (p_reqs p) (p_orig p) (p_time p).

(** The votes of the other nodes reach a node: each says the next view, for whatever reason. *)
Definition heard (now : Z) (view : nat) (others : list nat) : list Trigger_Model.op :=
  map (fun x => Trigger_Model.OInstanceChange now view 11%Z x true true false) others.
