(** Model of plenum/server/quorums.py and getMaxFailures of plenum/common/util.py. *)
From Coq Require Import Arith.

(** util.py:220-231 [getMaxFailures] ([int(floor((n - 1) / 3))]: the float division is exact
    enough for every node count below 2^52) *)
Definition getMaxFailures (nodeCount : nat) : nat :=
  if 4 <=? nodeCount then (nodeCount - 1) / 3 else 0.

(** util.py:234-243 [getNoInstances] *)
Definition getNoInstances (nodeCount : nat) : nat := getMaxFailures nodeCount + 1.

(** quorums.py:15-39 [Quorums.__init__] *)
Record quorums := mkQuorums {
  q_n : nat; q_f : nat;
  weak : nat; strong : nat; propagate : nat; prepare : nat; commit : nat; reply : nat;
  view_change : nat; election : nat; view_change_ack : nat; view_change_done : nat;
  same_consistency_proof : nat; consistency_proof : nat; ledger_status : nat;
  ledger_status_last_3PC : nat; checkpoint : nat; timestamp : nat; bls_signatures : nat;
  observer_data : nat; backup_instance_faulty : nat }.

Definition Quorums (n : nat) : quorums :=
  let f := getMaxFailures n in
  {| q_n := n; q_f := f;
     weak := f + 1;
     strong := n - f;
     propagate := f + 1;
     prepare := n - f - 1;
     commit := n - f;
     reply := f + 1;
     view_change := n - f;
     election := n - f;
     view_change_ack := n - f - 1;
     view_change_done := n - f;
     same_consistency_proof := f + 1;
     consistency_proof := f + 1;
     ledger_status := n - f - 1;
     ledger_status_last_3PC := f + 1;
     checkpoint := n - f - 1;
     timestamp := f + 1;
     bls_signatures := n - f;
     observer_data := f + 1;
     backup_instance_faulty := f + 1 |}.

(** quorums.py:8-9 [Quorum.is_reached] *)
Definition is_reached (value msg_count : nat) : bool := value <=? msg_count.
