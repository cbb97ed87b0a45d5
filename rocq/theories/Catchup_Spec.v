(** What the properties of catch-up talk about: replies, targets, requests and announcements,
    with no reference to how the service works. *)
From Coq Require Import List Arith Bool Permutation.
From Verif Require Import Base Dict Bits_Model Merkle_Spec Merkle_Model Ledger_Model CatchupReq_Model CatchupReq_Props Catchup_Model.
Import ListNotations.

(** The requests [reqs] ask for each [k] with [P k] exactly once, and for nothing else. *)
Definition covers (P : nat -> Prop) (reqs : list (nat * creq)) : Prop :=
  (forall k, P k -> exists l1 n r l2, reqs = l1 ++ (n, r) :: l2 /\ asks r k /\
     forall n' r', In (n', r') (l1 ++ l2) -> ~ asks r' k) /\
  (forall n r k, In (n, r) reqs -> asks r k -> P k).
(** They go to nodes of [el], are not empty and want proofs for [tl]. *)
Definition reqs_to (el : list nat) (tl : nat) (reqs : list (nat * creq)) : Prop :=
  forall n r, In (n, r) reqs -> In n el /\ q_till r = tl /\ q_start r <= q_end r.

Section Spec.
  Variable H : bytes -> bytes.
  Variable B : Type.
  Variable ser_tree : txn B -> bytes.
  Variable transform : txn B -> res (txn B).
  Variable lid : nat.
  (** the transactions the pool has agreed on *)
  Variable L : list (txn B).

  Definition prefix (a b : list (txn B)) : Prop := exists rest, b = a ++ rest.

  (** A target is true of the agreed transactions. *)
  Definition good_till (t : till) : Prop :=
    t_final t <= length L /\ exists h, t_hash t = Some h /\ MTH H (map ser_tree (firstn (t_final t) L)) h.

  (** Every key of the reply is the usual decimal spelling of its number. *)
  Definition canonical (r : rep B) : Prop :=
    forall l k x, r_txns B r = Some l -> In (k, x) l -> snd k = 0.
  (** The reply carries exactly the numbers [a], ..., [a + n - 1], spelled as usual. *)
  Definition ranged (r : rep B) (a n : nat) : Prop :=
    exists l, r_txns B r = Some l /\ (forall k x, In (k, x) l -> snd k = 0) /\ 0 < n /\
      Permutation (map (fun y => fst (fst y)) l) (seq a n).
  (** It carries agreed transactions only, and a consistency proof that verifies. *)
  Definition honest (t : till) (r : rep B) (a n : nat) : Prop :=
    r_ledger B r = lid /\ ranged r a n /\ 1 <= a /\ a + n - 1 <= t_final t /\
    (forall l k x, r_txns B r = Some l -> In (k, x) l ->
       exists y, nth_error L (fst k - 1) = Some y /\ transform x = Ok y) /\
    exists proof root h, r_proof B r = Some proof /\ t_hash t = Some h /\
      MTH H (map ser_tree (firstn (a + n - 1) L)) root /\
      verify_tree_consistency H (a + n - 1) (t_final t) root h proof = Ok tt.

  (** The announcements in a log, with the ledger's size before each. *)
  Definition added_of (l : list (entry B)) : list (nat * txn B) :=
    flat_map (fun e => match e with LAdded _ n x => [(n, x)] | _ => [] end) l.
  (** the announced transactions are what took the ledger from [C] to [C'] *)
  Definition Announced (C : list (txn B)) (l : list (entry B)) (C' : list (txn B)) : Prop :=
    exists ys, C' = C ++ ys /\ mapM transform (map snd (added_of l)) = Ok ys /\
      map fst (added_of l) = seq (length C) (length ys).
  Definition entries (reqs : list (nat * creq)) : list (entry B) := map (fun '(n, r) => LReq B n r) reqs.
  (** neither a blacklisting nor an exception *)
  Definition kind_entry (e : entry B) : Prop := match e with LBlack _ _ | LRaise _ _ => False | _ => True end.
  (** how often the service reported that it is done *)
  Definition completes (l : list (entry B)) : nat :=
    length (filter (fun e => match e with LComplete _ _ => true | _ => false end) l).

  (** Starts with true targets and replies with ordinary keys; anything else is free. *)
  Definition op_ok (o : op B) : Prop :=
    match o with
    | OStart _ (Some t) _ _ _ => good_till t
    | ORep _ r _ => canonical r
    | _ => True
    end.
  (** Honest replies and timer calls, and the numbers they carry. *)
  Inductive good_op (t : till) : op B -> (nat -> Prop) -> Prop :=
  | GRep r frm a n : honest t r a n -> good_op t (ORep B r frm) (fun k => a <= k < a + n)
  | GTimer el sh : (forall i l, Permutation l (sh i l)) -> good_op t (OTimer B el sh) (fun _ => False).
  Inductive good_ops (t : till) : list (op B) -> (nat -> Prop) -> Prop :=
  | GNil : good_ops t [] (fun _ => False)
  | GCons o os U V : good_op t o U -> good_ops t os V -> good_ops t (o :: os) (fun k => U k \/ V k).

  (** The service is not working and keeps nothing from an earlier run. *)
  Definition idle (s : st B) : Prop := s_working B s = false /\ s_replies B s = [] /\ s_received B s = [].
  (** The nodes the timer turns to: those that owe no reply, or all if every one does. *)
  Definition targets (s : st B) (eligible : list nat) : list nat :=
    if forallb (fun n => existsb (Nat.eqb n) (s_wait B s)) eligible then eligible
    else filter (fun n => negb (existsb (Nat.eqb n) (s_wait B s))) eligible.
End Spec.
