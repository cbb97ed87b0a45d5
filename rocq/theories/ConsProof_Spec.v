(** What C39 talks about: the messages a node got since it last started to look for a
    target, with no reference to how the service keeps them. *)
From Coq Require Import List Arith Bool.
From Verif Require Import Base Dict Quorum_Model CatchupReq_Model Catchup_Model Seeder_Model ConsProof_Model.
Import ListNotations.

(** At least [k] different nodes satisfy [P]. *)
Definition at_least (k : nat) (P : nat -> Prop) : Prop :=
  exists l, NoDup l /\ k <= length l /\ forall m, In m l -> P m.

Section Spec.
  Variable lid : nat.

  (** [m] says in [st] that its ledger is not longer than ours. *)
  Definition not_newer (e : env) (st : lstatus) : bool := (ls_ledger st =? lid) && (ls_size st <=? e_seqNo e).
  (** [c] is about this ledger, starts within what we have and goes forward. *)
  Definition usable (e : env) (c : cproof) : bool :=
    (c_ledger c =? lid) && (c_start c <=? e_size e) && (c_start c <? c_end c).

  (** The last word of node [m] since the last start: [Some None] that its ledger is not
      longer, [Some (Some c)] the consistency proof [c]. *)
  Definition word (m : nat) (v : option (option cproof)) (x : env * op) : option (option cproof) :=
    match x with
    | (_, OStart _) => None
    | (e, OStatus st frm) => if (frm =? m) && not_newer e st then Some None else v
    | (e, OProof c frm) => if (frm =? m) && usable e c then Some (Some c) else v
    | _ => v
    end.
  Definition last_word (m : nat) (h : list (env * op)) : option (option cproof) := fold_left (word m) h None.

  (** Since the last start [m] has said that its ledger is not longer. *)
  Definition conf (m : nat) (v : bool) (x : env * op) : bool :=
    match x with
    | (_, OStart _) => false
    | (e, OStatus st frm) => v || ((frm =? m) && not_newer e st)
    | _ => v
    end.
  Definition confirmed (m : nat) (h : list (env * op)) : bool := fold_left (conf m) h false.

  (** The last 3PC key [m] has sent with a status of our size. *)
  Definition keyed (m : nat) (v : option key) (x : env * op) : option key :=
    match x with
    | (_, OStart _) => None
    | (e, OStatus st frm) =>
      if (frm =? m) && (ls_ledger st =? lid) && (ls_size st =? e_seqNo e) then Some (ls_view st, ls_pp st) else v
    | _ => v
    end.
  Definition last_key (m : nat) (h : list (env * op)) : option key := fold_left (keyed m) h None.

  (** The number of nodes at the last start. *)
  Definition pool (n : nat) (h : list (env * op)) : nat :=
    fold_left (fun n x => match x with (e, OStart _) => length (e_names e) | _ => n end) h n.
  Definition max_faulty (n : nat) (h : list (env * op)) : nat := getMaxFailures (pool n h).

  (** What the step [x] does after the state [s]. *)
  Definition news (s : st) (x : env * op) : list entry := skipn (length (k_log s)) (k_log (step lid s x)).
  Definition starts (l : list entry) : nat :=
    length (filter (fun y => match y with LStart _ _ => true | _ => false end) l).
  Definition asked_to_start (h : list (env * op)) : nat :=
    length (filter (fun x => match snd x with OStart _ => true | _ => false end) h).

  (** [k] nodes' last word is the proof [c]. *)
  Definition backed (k : nat) (c : cproof) (h : list (env * op)) : Prop :=
    at_least k (fun m => last_word m h = Some (Some c)).
End Spec.
