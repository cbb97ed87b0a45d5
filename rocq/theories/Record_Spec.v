(** What C85 says: what somebody with nothing but the ledger does to find out who asked for what. *)
From Coq Require Import List Arith Bool.
From Verif Require Import Dict Record_Model.
Import ListNotations.

(** two dicts with the same entries *)
Definition same_dict {V} (a b : dict V) : Prop := forall k, get k a = get k b.

(** the operation as asked for: the data, the type, and the version if one is written *)
Definition operation_of (t : txn) : dict val :=
  (K_TYPE, get_type t) :: match get_payload_txn_version t with Some v => [(K_VER, v)] | None => [] end ++ get_payload_data t.
(** what was signed, from what is written *)
Definition message_of (t : txn) : msg :=
  Msg (match get_from t with Some i => Some (Some [i]) | None => None end) (get_req_id t) (sort (operation_of t))
      (get_protocol_version t) (t_taa t) (get_endorser t).
(** who is found to have signed what is written: everybody with a signature there, if all signatures are good *)
Definition audit (t : txn) : option (list ident) :=
  match t_sigs t with
  | Some (x :: l) =>
      if forallb (fun y => match fst y with Some i => verify i (message_of t) (snd y) | None => false end) (x :: l)
      then Some (flat_map (fun y => match fst y with Some i => [i] | None => [] end) (x :: l)) else None
  | _ => None
  end.

(** the version can be told: one is given, or none is given and none is put in its place *)
Definition version_plain (r : request) : Prop :=
  match get 1 (operation r) with
  | Some v => v <> PNone
  | None => get 0 (operation r) <> Some T_TAA
  end.
(** a request as a dict: no key twice *)
Definition dicts (r : request) : Prop :=
  NoDup (map fst (operation r)) /\ match signatures r with Some d => NoDup (map fst d) | None => True end.
(** two transactions that differ in their digests at most *)
Definition same_but_digests (a b : txn) : Prop :=
  t_type a = t_type b /\ t_protocol a = t_protocol b /\ t_version a = t_version b /\ same_dict (t_data a) (t_data b) /\
  t_from a = t_from b /\ t_req_id a = t_req_id b /\ t_taa a = t_taa b /\ t_endorser a = t_endorser b /\ t_sigs a = t_sigs b.
