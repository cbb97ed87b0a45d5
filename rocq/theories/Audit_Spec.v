(** Vocabulary for C41: which batches the audit ledger describes at the end of a history, and
    what a field of an audit transaction stands for. *)
From Coq Require Import List Arith Bool.
From Verif Require Import Base Dict Audit_Model.
Import ListNotations.

(** The batches whose effects are in force after a history: the committed ones and those applied
    but not committed, oldest first. A reject takes back the youngest applied batch. None if a
    commit or reject finds no applied batch, or a catch-up finds one or brings a batch without
    audit transaction. *)
Definition standing : Type := list (env * batch) * list (env * batch).
Definition stand1 (s : standing) (o : aop) : option standing :=
  let '(done, pending) := s in
  match o, pending with
  | AApply e b, _ => Some (done, pending ++ [(e, b)])
  | ACommit, x :: rest => Some (done ++ [x], rest)
  | AReject, _ :: _ => Some (done, removelast pending)
  | ACatchup e b, [] => if b_audit b then Some (done ++ [(e, b)], []) else None
  | _, _ => None
  end.
Fixpoint stand (s : standing) (os : list aop) : option standing :=
  match os with
  | [] => Some s
  | o :: os' => match stand1 s o with Some s' => stand s' os' | None => None end
  end.

(** Those with an audit transaction. *)
Definition audited (l : list (env * batch)) : list (env * batch) := filter (fun x => b_audit (snd x)) l.

(** In the audit transactions [A] (oldest first, counted from 0), the field [f] of number [i]
    stands for [v]: it is [v], or it says how far back to go to find [v]. *)
Definition stands_for {V} (f : adata -> option (fld V)) (A : list adata) (i : nat) (v : V) : Prop :=
  exists a, nth_error A i = Some a /\
    (f a = Some (Val v) \/
     exists n a', f a = Some (Back n) /\ 0 < n <= i /\ nth_error A (i - n) = Some a' /\ f a' = Some (Val v)).

Definition ledger_root_of (lid : nat) (a : adata) : option (fld bytes) := get lid (a_root a).

(** A ledger that takes part in a batch: registered, not frozen, and not the audit ledger. *)
Definition live (lid : nat) (x : env * batch) (v : lview) : Prop :=
  get lid (e_ledgers (fst x)) = Some v /\ get lid (e_frozen (fst x)) = None /\ lid <> AUDIT_LEDGER_ID.
Definition frozen (lid : nat) (x : env * batch) : Prop := get lid (e_frozen (fst x)) <> None.

(** Ledgers only grow, and what is frozen stays frozen. *)
Definition grows (l : list (env * batch)) : Prop :=
  forall i j x y lid v w, i <= j -> nth_error l i = Some x -> nth_error l j = Some y ->
    live lid x v -> live lid y w -> exists more, lv_txns w = lv_txns v ++ more.
Definition stays_frozen (l : list (env * batch)) : Prop :=
  forall i j x y lid, i <= j -> nth_error l i = Some x -> nth_error l j = Some y -> frozen lid x -> frozen lid y.
(** A dict has each key once. *)
Definition proper (x : env * batch) : Prop :=
  NoDup (map fst (e_ledgers (fst x))) /\ NoDup (map fst (e_frozen (fst x))).
