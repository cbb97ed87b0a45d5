(** What a node that crashed and started again should have on disk (C54), in terms of the batches the
    pool has ordered and of the order of the node's writes only. *)
From Coq Require Import List Arith Bool.
From Verif Require Import Base Dict Recover_Model.
Import ListNotations.

Section Spec.
  Variables txn St : Type.
  Variable up : nat -> St -> txn -> St.
  Variable blank : St.
  Variable is_blank : St -> bool.
  Variable lids : list nat.
  Variable batches : list (nat * list txn).
  Variable gen : nat -> list txn.

  (** every state is the one its ledger describes *)
  Definition state_of (lid : nat) (l : list txn) : St := fold_left (up lid) l blank.
  Definition states_match (d : disk txn St) : Prop := forall lid, In lid lids -> d_st d lid = state_of lid (d_led d lid).
  (** the node has exactly the first [m] batches of the pool: audit ledger, ledgers and states *)
  Definition at_batch (d : disk txn St) (m : nat) : Prop :=
    d_audit d = agreed_audit txn lids batches gen m /\
    forall lid, In lid lids -> d_led d lid = agreed txn batches gen m lid /\ d_st d lid = state_of lid (agreed txn batches gen m lid).
  (** every transaction ordered by the pool that the node has can be found by its digest *)
  Definition indexed (d : disk txn St) : Prop :=
    forall lid i, In lid lids -> length (gen lid) <= i < length (d_led d lid) -> In (lid, i) (d_index d).

  (** A history: the first thing a process does is to start; a crash is followed by another start. A
      batch is committed only on top of the batches before it (its PrePrepare carries their roots),
      and the nodes one catches up with have all the batches this node has seen. *)
  Inductive legal : disk txn St -> bool -> list (job * option nat) -> Prop :=
  | legal_nil : forall d b, legal d b []
  | legal_start : forall d b c js,
      legal (jstep txn St up is_blank lids batches gen d (JStart, c)) (match c with None => true | Some _ => false end) js ->
      legal d b ((JStart, c) :: js)
  | legal_commit : forall d c js,
      length (d_audit d) < length batches ->
      (forall lid, In lid lids -> d_led d lid = agreed txn batches gen (length (d_audit d)) lid) ->
      legal (jstep txn St up is_blank lids batches gen d (JCommit, c)) (match c with None => true | Some _ => false end) js ->
      legal d true ((JCommit, c) :: js)
  | legal_catchup : forall d m c js,
      length (d_audit d) <= m <= length batches ->
      legal (jstep txn St up is_blank lids batches gen d (JCatchup m, c)) (match c with None => true | Some _ => false end) js ->
      legal d true ((JCatchup m, c) :: js).

  (** the crash does not fall between a transaction's addition to the ledger and the commit of the
      state that goes with it *)
  Definition pending (lid : nat) (ws : list (write txn St)) : bool :=
    fold_left (fun (b : bool) w => match w with
                          | WTxn l _ => if l =? lid then true else b
                          | WState l _ => if l =? lid then false else b
                          | _ => b
                          end) ws false.
  Fixpoint careful (d : disk txn St) (js : list (job * option nat)) : Prop :=
    match js with
    | [] => True
    | (j, c) :: rest =>
        (match c with
         | None => True
         | Some n => j <> JStart /\ forall lid, In lid lids -> pending lid (firstn n (job_writes txn St up is_blank lids batches gen d j)) = false
         end) /\ careful (jstep txn St up is_blank lids batches gen d (j, c)) rest
    end.
  (** the crash does not fall between a transaction's addition to the ledger and its addition to the
      index *)
  Definition unindexed (lid : nat) (ws : list (write txn St)) : bool :=
    fold_left (fun (b : bool) w => match w with
                          | WTxn l _ => if l =? lid then true else b
                          | WIndex l => if existsb (fun e => fst e =? lid) l then false else b
                          | _ => b
                          end) ws false.
  Fixpoint careful_index (d : disk txn St) (js : list (job * option nat)) : Prop :=
    match js with
    | [] => True
    | (j, c) :: rest =>
        (match c with
         | None => True
         | Some n => forall lid, In lid lids -> unindexed lid (firstn n (job_writes txn St up is_blank lids batches gen d j)) = false
         end) /\ careful_index (jstep txn St up is_blank lids batches gen d (j, c)) rest
    end.
  (** no crash at all from here on *)
  Definition uncut (js : list (job * option nat)) : Prop := forall j c, In (j, c) js -> c = None.
End Spec.
