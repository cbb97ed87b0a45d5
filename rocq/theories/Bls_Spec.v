(** What is assumed of a history of a replica's BLS part, and what makes a signature good. *)
From Coq Require Import List Arith Bool.
From Verif Require Import Quorum_Model Dict Bls_Model.
Import ListNotations.

Section Spec.
  Variables (vk sig msig : Type).
  Variable verify : sig -> value -> vk -> bool.
  Variable keys : root -> option (name -> option vk).
  Variable aggregate : list sig -> msig.
  Variable verify_multi : msig -> value -> list vk -> bool.

  (** The multi-signature made from correct signatures is correct. *)
  Definition scheme_ok : Prop := forall sigs vks v, sigs <> [] -> Forall2 (fun s k => verify s v k = true) sigs vks ->
    verify_multi (aggregate sigs) v vks = true.

  (** [x] has a key in the pool state named by [v], and [s] is its signature of [v]. *)
  Definition signed_by (x : name) (s : sig) (v : value) : Prop :=
    exists reg k, keys (v_pool v) = Some reg /\ reg x = Some k /\ verify s v k = true.

  (** [v] is the value of ledger [lid] after batch [pp], according to audit transaction [t]. *)
  Definition value_of (t : audit_txn) (pp : pre_prepare msig) (lid : nat) (v : value) : Prop :=
    exists r h pool, get lid (a_states t) = Some r /\ get lid (a_ledgers t) = Some (Hash h) /\
      pp_pool pp = Val pool /\ v = Value lid r pool h (pp_time pp).

  (** In the audit transaction, every ledger with a state root has its own root. *)
  Definition regular (t : audit_txn) : Prop :=
    forall lid r, get lid (a_states t) = Some r -> exists h, get lid (a_ledgers t) = Some (Hash h).

  (** For every batch the replica has one PrePrepare and one audit transaction (or none). *)
  Definition fits (ppof : key -> pre_prepare msig) (txn : key -> option audit_txn) (e : event sig msig) : Prop :=
    match e with
    | ECommit audit c _ pp => pp = ppof (c_key c) /\ pp_key pp = c_key c /\ audit_for audit pp = txn (c_key c)
    | EOwn _ audit pp | EOrder audit pp => pp = ppof (pp_key pp) /\ audit_for audit pp = txn (pp_key pp)
    | _ => True
    end.

  (** The replica signs with the key that the pool state of the batch has for it. *)
  Definition own_key (me : name) (es : list (event sig msig)) : Prop :=
    forall sign audit pp v, In (EOwn (Some sign) audit pp) es -> pp_pool pp = Val (v_pool v) -> signed_by me (sign v) v.

  (** [x] sent signature [s] under text [txt] for the batch: in a Commit, or it is the replica itself *)
  Definition sent_by (me : name) (es : list (event sig msig)) (k : key) (x : name) (txt : nat) (s : sig) : Prop :=
    (exists audit c pp l, In (ECommit audit c x pp) es /\ c_key c = k /\ c_sigs c = Some l /\ In (txt, s) l) \/
    (x = me /\ exists sign audit pp v, In (EOwn (Some sign) audit pp) es /\ pp_key pp = k /\ s = sign v).

  (** The pool states that messages name exist, PrePrepares name one, audit transactions are regular. *)
  Definition well_founded (audit : list audit_txn) (pp : pre_prepare msig) : Prop :=
    forall t, audit_for audit pp = Some t -> regular t /\ exists pool, pp_pool pp = Val pool /\ keys pool <> None.
  Definition tame (e : event sig msig) : Prop :=
    match e with
    | EPrePrepare pp _ => forall ms m, pp_multi pp = Some ms -> In m ms -> keys (v_pool (ms_value m)) <> None
    | ECommit audit _ _ pp | EOwn _ audit pp | EOrder audit pp => well_founded audit pp
    | _ => True
    end.

  (** The Commits for batch [k] that carry signatures carry them for these ledgers, named in the usual way. *)
  Definition usual (str_of : nat -> nat) (k : key) (lids : list nat) (es : list (event sig msig)) : Prop :=
    forall audit c x pp l, In (ECommit audit c x pp) es -> c_key c = k -> c_sigs c = Some l ->
      forall txt, In txt (map fst l) <-> In txt (map str_of lids).

  (** [x] gave its signatures for batch [k]: in a Commit where all are good, or it is the replica
      itself, which signed. *)
  Definition gave (int_of : nat -> nat) (me : name) (k : key) (t : audit_txn) (es : list (event sig msig)) (x : name) : Prop :=
    (exists audit c pp l, In (ECommit audit c x pp) es /\ c_key c = k /\ c_sigs c = Some l /\
       forall txt s, In (txt, s) l -> exists v, value_of t pp (int_of txt) v /\ signed_by x s v) \/
    (x = me /\ exists sign audit pp, In (EOwn (Some sign) audit pp) es /\ pp_key pp = k).

  (** Batch [k] is not ordered, skipped or forgotten yet. *)
  Definition pending (k : key) (es : list (event sig msig)) : Prop :=
    key_leb k (0, 0) = false /\
    forall e, In e es -> match e with
                         | EOrder _ pp => key_leb k (pp_key pp) = false
                         | ELast k' | EGc k' => key_leb k k' = false
                         | _ => True
                         end.

End Spec.
Arguments scheme_ok {vk sig msig}. Arguments signed_by {vk sig}. Arguments value_of {msig}. Arguments fits {sig msig}.
Arguments own_key {vk sig msig}. Arguments sent_by {sig msig}.
Arguments well_founded {vk msig}. Arguments tame {vk sig msig}. Arguments usual {sig msig}.
Arguments gave {vk sig msig}. Arguments pending {sig msig}.
