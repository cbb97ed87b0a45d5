(** What the tracker of uncommitted batches is supposed to be: a pool of batches, each with
    the roots after it and the number of transactions it added. *)
From Coq Require Import List ZArith.
From Verif Require Import Base Ledger_Model Ledger_Spec.
Import ListNotations.
Local Open Scope Z_scope.

Section Spec.
  Context {R : Type}.
  Record batch := mkBatch { b_state_root : R; b_txn_root : R; b_added : Z }.
  (** Roots and size of the committed ledger, and the applied batches, oldest first. *)
  Record pool := mkPool { c_state_root : R; c_txn_root : R; c_size : Z; batches : list batch }.

  Definition total (p : pool) : Z := fold_left (fun n b => n + b_added b) (batches p) (c_size p).

  (** A call and its answer. *)
  Inductive call :=
  | Apply (state_root txn_root : R) (ledger_size : Z)
  | Commit (state_root txn_root : R) (count : Z)   (* committed roots, transactions committed *)
  | Reject (state_root txn_root : R) (count : Z).  (* roots to revert to, transactions to discard *)

  Inductive pool_step : pool -> call -> pool -> Prop :=
  | S_apply sr tr n bs sr' tr' n' : 0 <= n' ->
      pool_step (mkPool sr tr n bs) (Apply sr' tr' n')
                (mkPool sr tr n (bs ++ [mkBatch sr' tr' (n' - total (mkPool sr tr n bs))]))
  | S_commit sr tr n b bs :
      pool_step (mkPool sr tr n (b :: bs)) (Commit (b_state_root b) (b_txn_root b) (b_added b))
                (mkPool (b_state_root b) (b_txn_root b) (n + b_added b) bs)
  | S_reject_only sr tr n b :
      pool_step (mkPool sr tr n [b]) (Reject sr tr (b_added b)) (mkPool sr tr n [])
  | S_reject sr tr n bs b1 b :
      pool_step (mkPool sr tr n (bs ++ [b1; b])) (Reject (b_state_root b1) (b_txn_root b1) (b_added b))
                (mkPool sr tr n (bs ++ [b1])).

  Inductive pool_steps : pool -> list call -> pool -> Prop :=
  | Ps_nil p : pool_steps p [] p
  | Ps_cons p c p1 cs p2 : pool_step p c p1 -> pool_steps p1 cs p2 -> pool_steps p (c :: cs) p2.
End Spec.
Arguments batch : clear implicits.
Arguments pool : clear implicits.
Arguments call : clear implicits.
