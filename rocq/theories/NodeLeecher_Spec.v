(** What catching up a whole node should amount to (C55). *)
From Coq Require Import List Arith Bool.
From Verif Require Import Base Dict Audit_Model NodeLeecher_Model.
Import ListNotations.

(** Seen from outside: the search for the target of a ledger starts, or a ledger is fetched up to a
    target already known, or the catch-up is complete. *)
Inductive act := Search (lid : nat) (statuses : bool) | Fetch (lid : nat) (t : option till) | Complete.
Definition act_of (o : out) : list act :=
  match o with
  | OConsProof l b => [Search l b]
  | OCatchupRep l t _ => [Fetch l t]
  | OContinue _ _ _ => []
  | ONodeComplete => [Complete]
  end.
Definition acts (os : list out) : list act := flat_map act_of os.

(** the ledgers besides the pool, config and audit ledgers that are not frozen *)
Definition others (registered frozen : list nat) : list nat :=
  filter (fun l => negb ((l =? AUDIT_LEDGER_ID) || (l =? POOL_LEDGER_ID) || (l =? CONFIG_LEDGER_ID) || existsb (Nat.eqb l) frozen)) registered.

(** the first report that ledger [lid] is complete, and what comes after it *)
Fixpoint until_done (lid : nat) (es : list (event * world)) : option (world * list (event * world)) :=
  match es with
  | [] => None
  | (EDone l n, w) :: r => if l =? lid then Some (w, r) else until_done lid r
  | _ :: r => until_done lid r
  end.

(** The ledgers of a plan one after the other: each one is started when the one before it is complete,
    with the target [T] has for it, if any; the catch-up is complete with the last one. *)
Definition start_of (T : dict till) (l : nat) : act :=
  match get l T with None => Search l true | Some t => Fetch l (if t_start t =? t_final t then None else Some t) end.
Fixpoint in_turn (T : dict till) (plan : list nat) (es : list (event * world)) : list act :=
  match plan with
  | [] => [Complete]
  | l :: r => start_of T l :: match until_done l es with None => [] | Some (_, es') => in_turn T r es' end
  end.
(** The audit ledger first, then the pool and config ledgers and the others, up to the targets that
    the audit ledger gives; a starting node needs the pool ledger even before. *)
Definition from_audit (targets : world -> dict till) (registered fr : list nat) (es : list (event * world)) : list act :=
  Search AUDIT_LEDGER_ID true ::
  match until_done AUDIT_LEDGER_ID es with
  | None => []
  | Some (w, es') => in_turn (targets w) ([POOL_LEDGER_ID; CONFIG_LEDGER_ID] ++ others registered fr) es'
  end.
Definition round (targets : world -> dict till) (registered fr : list nat) (is_initial : bool) (es : list (event * world)) : list act :=
  if is_initial
  then Search POOL_LEDGER_ID false ::
       match until_done POOL_LEDGER_ID es with None => [] | Some (_, es') => from_audit targets registered fr es' end
  else from_audit targets registered fr es.

(** A service at rest, with the given ledgers registered *)
Definition at_rest (s : svc) (registered : list nat) : Prop :=
  s_state s = Idle /\ s_cur s = None /\ map fst (s_leechers s) = registered.
Definition registered_ok (registered : list nat) : Prop :=
  NoDup registered /\ In AUDIT_LEDGER_ID registered /\ In POOL_LEDGER_ID registered /\ In CONFIG_LEDGER_ID registered.

(** no second start, and what is frozen does not change once the config ledger is complete *)
Definition no_start (es : list (event * world)) : Prop := forall i w, ~ In (EStart i, w) es.
Definition frozen_is (fr : list nat) (es : list (event * world)) : Prop :=
  forall lid n w, In (EDone lid n, w) es -> lid <> AUDIT_LEDGER_ID -> lid <> POOL_LEDGER_ID -> w_frozen w = fr.

(** What makes a step raise: reports about ledgers that are not registered, the audit ledger
    reported complete without a search for its target before, sizes that name no transaction,
    or an audit ledger that becomes empty *)
Definition reasonable (registered : list nat) (es : list (event * world)) : Prop :=
  (forall lid t z w, In (EProof lid t z, w) es -> In lid registered) /\
  (forall lid n w, In (EDone lid n, w) es -> In lid registered) /\
  (forall e1 n w e2, es = e1 ++ (EDone AUDIT_LEDGER_ID n, w) :: e2 -> exists t z w', In (EProof AUDIT_LEDGER_ID t z, w') e1) /\
  (forall t z w, In (EProof AUDIT_LEDGER_ID t (Some z), w) es -> forall n k, In (n, k) z -> 0 < k) /\
  (forall e1 l n w e2 l' n' w' , es = e1 ++ (EDone l n, w) :: e2 -> In (EDone l' n', w') e2 -> w_audit w <> [] -> w_audit w' <> []).

(** the number given with the last report that ledger [lid] is complete *)
Definition last_num (lid : nat) (es : list (event * world)) : nat :=
  fold_left (fun n x => match fst x with EDone l k => if l =? lid then k else n | _ => n end) es 0.
