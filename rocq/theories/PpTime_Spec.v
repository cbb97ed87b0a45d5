(** What the times of batches should be (C30, C56). *)
From Coq Require Import List Arith Bool Sorted.
From Verif Require Import PpTime_Model.
Import ListNotations.

Definition nondecreasing (l : list nat) : Prop := StronglySorted le l.
(** the times of the batches a node has created; of those it has created or accepted *)
Definition created (os : list out) : list nat := flat_map (fun o => match o with OCreated t => [t] | _ => [] end) os.
Definition times (os : list out) : list nat :=
  flat_map (fun o => match o with OCreated t => [t] | OAccepted p _ | OReordered p _ => [p_time p] | OWrongTime _ => [] end) os.

(** no catch-up starts and no view change, so no batch is reverted *)
Definition no_revert (es : list event) : Prop := forall e, In e es -> match e with ERevert | EViewChange _ => False | _ => True end.
Definition no_catchup_end (es : list event) : Prop := forall ts, ~ In (ECaught ts) es.
(** every batch that was accepted was accepted because of its time, by a node that is not the primary *)
Definition all_regular (os : list out) : Prop :=
  forall o, In o os -> match o with OAccepted _ r => r = Regular | OReordered _ _ => False | _ => True end.
