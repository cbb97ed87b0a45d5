(** What users expect of the pool's nodes (C57) and of the registry kept from them (C59). *)
From Coq Require Import List Arith Bool.
From Verif Require Import Pool_Model.
Import ListNotations.

(** the transactions a pool starts with: each adds a node with all fields, nothing is shared *)
Definition genesis_ok (g : list txn) : Prop :=
  NoDup (map x_nym g) /\ NoDup (map x_from g) /\ NoDup (map (fun x => d_alias (x_data x)) g) /\
  NoDup (map (fun x => node_ha (d_ha (x_data x))) g) /\ NoDup (map (fun x => client_ha (d_ha (x_data x))) g) /\
  forall x, In x g -> d_ident (x_data x) = None /\ exists a c, d_ha (x_data x) = Some (a, c) /\ a <> c.

(** all pool states a node holds, the committed one first *)
Definition states (n : node) : list pstate := n_state n :: map snd (n_unc n).

(** no two nodes share a name or an address of the same kind *)
Definition distinct (st : pstate) : Prop :=
  forall m1 e1 m2 e2, get m1 st = Some e1 -> get m2 st = Some e2 -> m1 <> m2 ->
    e_alias e1 <> e_alias e2 /\ node_ha (e_ha e1) <> node_ha (e_ha e2) /\ client_ha (e_ha e1) <> client_ha (e_ha e2).
Definition owners_distinct (st : pstate) : Prop :=
  forall m1 e1 m2 e2, get m1 st = Some e1 -> get m2 st = Some e2 -> m1 <> m2 -> e_ident e1 <> e_ident e2.
Definition addressed (st : pstate) : Prop := forall m e, get m st = Some e -> exists a c, e_ha e = Some (a, c) /\ a <> c.

(** no request carries an `identifier` among its data *)
Definition plain (es : list event) : Prop :=
  forall rs x, In (EBatch rs) es \/ In (ECaught rs) es -> In x rs -> d_ident (x_data x) = None.
(** each node's first transaction says whether it is a validator *)
Definition announced (ledger : list txn) : Prop :=
  forall l1 x l2, ledger = l1 ++ x :: l2 -> (forall y, In y l1 -> x_nym y <> x_nym x) -> d_serv (x_data x) <> None.

(** two registries that say the same *)
Definition same_registry (g g' : registry) : Prop :=
  g_ids g = g_ids g' /\ (forall nym, get nym (g_serv g) = get nym (g_serv g')) /\ (forall alias, get alias (g_reg g) = get alias (g_reg g')).

(** the registry that a ledger means: a name is in it, with these addresses, exactly if the last word
    about the services of a node of that name is that it is a validator, and these were the last
    addresses given for it *)
Fixpoint last_some {A} (l : list (option A)) : option A :=
  match l with [] => None | x :: r => match last_some r with Some v => Some v | None => x end end.
Definition of_node (nym : nat) (ledger : list txn) : list data := map x_data (filter (fun x => x_nym x =? nym) ledger).
Definition registered (ledger : list txn) (alias : nat) (h : nat * nat) : Prop :=
  exists nym d, In d (of_node nym ledger) /\ d_alias d = alias /\
    last_some (map d_serv (of_node nym ledger)) = Some true /\ last_some (map d_ha (of_node nym ledger)) = Some h.
