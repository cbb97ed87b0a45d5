(** Model of the transaction author agreement (TAA): plenum/server/request_handlers/
    static_taa_helper.py, base_taa_handler.py, txn_author_agreement_handler.py,
    txn_author_agreement_aml_handler.py, txn_author_agreement_disable_handler.py, and
    do_taa_validation in plenum/server/request_managers/write_request_manager.py.
    The config state is a map (C10) with separate key ranges "2:latest", "2:v:<version>",
    "2:d:<digest>", "3:latest", "3:v:<version>"; it is modelled as five maps. Strings are lists of
    numbers. Whether the author is a trustee comes with the request (the domain state is not modelled
    here). *)
From Coq Require Import List Arith Bool.
Import ListNotations.

Definition str := list nat.
Definition str_eqb (a b : str) : bool := if list_eq_dec Nat.eq_dec a b then true else false.
Definition mget {V} (k : str) (d : list (str * V)) : option V :=
  match find (fun x => str_eqb (fst x) k) d with Some x => Some (snd x) | None => None end.
Definition mset {V} (k : str) (v : V) (d : list (str * V)) : list (str * V) := (k, v) :: filter (fun x => negb (str_eqb (fst x) k)) d.

(** base_taa_handler.py:17-31 the value stored under a digest, with seqNo and txnTime (utils.py:42) *)
Record taa := mkTaa { t_text : str; t_version : str; t_ratified : option nat; t_digest : str; t_retired : option nat; t_seq : nat; t_time : nat }.
Record aml := mkAml { a_version : str; a_mechs : list str; a_seq : nat; a_time : nat }.
Record conf := mkConf {
  c_latest : option str;            (* 2:latest *)
  c_vers : list (str * str);        (* 2:v: version -> digest *)
  c_taas : list (str * taa);        (* 2:d: digest -> agreement *)
  c_aml : option aml;               (* 3:latest *)
  c_amls : list (str * aml)         (* 3:v: *)
}.
Definition empty_conf : conf := mkConf None [] [] None [].

(** A write request: its operation, whether its author is a trustee in the uncommitted state, and whether
    the nodes had it from its client: then it passed doStaticValidation (node.py:1652), which is not done for
    a request that comes with a PROPAGATE (node.py:2099-2140).
    Optional fields are options; the schema (client_request.py:76-104) requires the versions. *)
Inductive wop :=
| WTaa (version : str) (text : option str) (ratified retired : option nat)
| WAml (version : str) (mechs : list str)
| WDisable.
Record wreq := mkW { w_op : wop; w_trustee : bool; w_client : bool }.

Section Taa.
  (** sha256(...).hexdigest() *)
  Variable H : str -> str.
  (** datetime.utcfromtimestamp raises ValueError above this *)
  Variable max_ts : nat.

  (** static_taa_helper.py:29-31 *)
  Definition taa_digest (text version : str) : str := H (version ++ text).
  (** static_taa_helper.py:41-48 [get_taa_digest]; write_request_manager.py:223-229 *)
  Definition get_taa_digest (c : conf) (version : option str) : option str :=
    match version with None => c_latest c | Some v => mget v (c_vers c) end.
  (** static_taa_helper.py:57-65 [get_taa_aml_data]; write_request_manager.py:248-254 *)
  Definition get_taa_aml_data (c : conf) (version : option str) : option aml :=
    match version with None => c_aml c | Some v => mget v (c_amls c) end.

  (** static_taa_helper.py:71-79 [authorize]: only these two types are looked at *)
  Definition authorized (r : wreq) : bool :=
    match w_op r with WTaa _ _ _ _ | WAml _ _ => w_trustee r | WDisable => true end.

  (** txn_author_agreement_handler.py:142-149 [_validate_ts]; 0 counts as missing *)
  Definition ts_ok (ts : option nat) : bool := match ts with None => true | Some t => t <=? max_ts end.
  Definition static_ok (r : wreq) : bool :=
    match w_op r with
    | WTaa _ _ rat ret => ts_ok ret && ts_ok rat
    | WAml _ ms => negb (length ms =? 0)        (* txn_author_agreement_aml_handler.py:20-25 *)
    | WDisable => true
    end.

  (** txn_author_agreement_handler.py:89-109 [_validate_add_taa] *)
  Definition validate_add (text : option str) (rat ret : option nat) (pp_time : nat) : bool :=
    match text, ret, rat with
    | Some _, None, Some t => t <=? pp_time
    | _, _, _ => false
    end.
  Definition ostr_eqb (a b : option str) : bool := match a, b with Some x, Some y => str_eqb x y | None, None => true | _, _ => false end.
  Definition onat_eqb (a b : option nat) : bool := match a, b with Some x, Some y => x =? y | None, None => true | _, _ => false end.
  (** txn_author_agreement_handler.py:111-140 [_validate_update_taa]. If the version leads to a digest
      without an agreement the code raises another exception: refused as well. *)
  Definition validate_update (c : conf) (text : option str) (rat : option nat) (digest : str) : bool :=
    match mget digest (c_taas c) with
    | None => false
    | Some t =>
      (match text with None => true | Some x => str_eqb x (t_text t) end) &&
      (match rat with None => true | Some x => onat_eqb (Some x) (t_ratified t) end) &&
      match c_latest c with None => false | Some l => negb (str_eqb l digest) end
    end.
  (** txn_author_agreement_handler.py:30-43, txn_author_agreement_aml_handler.py:27-32,
      txn_author_agreement_disable_handler.py:29-32, on the uncommitted state *)
  Definition dynamic_ok (c : conf) (r : wreq) (pp_time : nat) : bool :=
    match w_op r with
    | WTaa v text rat ret =>
      match c_aml c with
      | None => false
      | Some _ => match get_taa_digest c (Some v) with
                  | None => validate_add text rat ret pp_time
                  | Some d => validate_update c text rat d
                  end
      end
    | WAml v _ => match get_taa_aml_data c (Some v) with Some _ => false | None => true end
    | WDisable => match c_latest c with None => false | Some _ => true end
    end.

  (** base_taa_handler.py:17-31 [_set_taa_to_state]; a retirement date 0 is not stored *)
  Definition set_taa (c : conf) (digest : str) (seq time : nat) (text version : str) (rat ret : option nat) : conf :=
    let ret' := match ret with Some 0 => None | x => x end in
    mkConf (c_latest c) (c_vers c) (mset digest (mkTaa text version rat digest ret' seq time) (c_taas c)) (c_aml c) (c_amls c).
  (** txn_author_agreement_disable_handler.py:34-49 *)
  Definition disable_one (seq time : nat) (x : str * taa) : str * taa :=
    let '(d, t) := x in
    if match t_retired t with None => true | Some r => time <? r end
    then (d, mkTaa (t_text t) (t_version t) (t_ratified t) d (match time with 0 => None | _ => Some time end) seq time)
    else (d, t).
  (** the [update_state] of the three handlers: txn_author_agreement_handler.py:45-80,
      txn_author_agreement_aml_handler.py:34-45, txn_author_agreement_disable_handler.py:34-49.
      A text that is missing counts as empty (validated away). *)
  Definition update_state (c : conf) (o : wop) (seq time : nat) : conf :=
    match o with
    | WTaa v text rat ret =>
      match get_taa_digest c (Some v) with
      | None =>
        let text := match text with Some t => t | None => [] end in
        let d := taa_digest text v in
        let c := set_taa c d seq time text v rat None in
        mkConf (Some d) (mset v d (c_vers c)) (c_taas c) (c_aml c) (c_amls c)
      | Some d =>
        match mget d (c_taas c) with
        | None => c
        | Some t => set_taa c d seq time (t_text t) (t_version t) (t_ratified t) ret
        end
      end
    | WAml v ms => let a := mkAml v ms seq time in mkConf (c_latest c) (c_vers c) (c_taas c) (Some a) (mset v a (c_amls c))
    | WDisable => mkConf None (c_vers c) (map (disable_one seq time) (c_taas c)) (c_aml c) (c_amls c)
    end.

  (** ** The acceptance carried by a request of a client *)
  Record acceptance := mkAcc { ac_digest : str; ac_mech : str; ac_time : nat }.
  Inductive verdict := VOk | VNotExpected | VMissing | VNotFound | VRetired | VBadTime | VTooPrecise | VWrongTime | VNoAml | VBadMech | VError.
  Variable day_len before after : nat.   (* 86400, config 120, config 120 *)
  Definition day (t : nat) : nat := t / day_len.
  (** write_request_manager.py:297-395 [do_taa_validation]: [head] is the uncommitted and [com] the
      committed config state; the acceptance mechanisms are read from the committed one (line 378).
      Dates before 1970 are taken for the first day (ac_time is later, fields.py:510). *)
  Definition do_taa_validation (required : bool) (head com : conf) (acc : option acceptance) (pp_time : nat) : verdict :=
    if negb required then match acc with Some _ => VNotExpected | None => VOk end
    else
      let enabled := match c_latest head with None => false | Some d => match mget d (c_taas head) with None => false | Some _ => true end end in
      if negb enabled then VOk
      else match acc with
      | None => VMissing
      | Some a =>
        match mget (ac_digest a) (c_taas head) with
        | None => VNotFound
        | Some t =>
          if match t_retired t with Some r => negb (r =? 0) && (r <? pp_time) | None => false end then VRetired
          else if max_ts <? ac_time a then VBadTime
          else if negb (ac_time a mod day_len =? 0) then VTooPrecise
          else match t_ratified t with
          | None => VError
          | Some r =>
            if (day (ac_time a) <? day (r - before)) || (day (pp_time + after) <? day (ac_time a)) then VWrongTime
            else match c_aml com with
            | None => VNoAml
            | Some m => if existsb (str_eqb (ac_mech a)) (a_mechs m) then VOk else VBadMech
            end
          end
        end
      end.

  (** ** Histories: the committed state with the number of committed transactions, and the same after
      each applied batch, oldest first *)
  Record node := mkN { n_com : conf * nat; n_states : list (conf * nat) }.
  Definition head (n : node) : conf * nat := last (n_states n) (n_com n).
  (** ordering_service.py:1138-1166, 1794-1828: each request of a batch is validated in the state left
      by those before it; the invalid ones are skipped *)
  Definition valid (c : conf) (r : wreq) (t : nat) : bool := (negb (w_client r) || static_ok r) && authorized r && dynamic_ok c r t.
  Fixpoint apply_batch (cs : conf * nat) (rs : list wreq) (t : nat) : conf * nat :=
    match rs with
    | [] => cs
    | r :: rs' => if valid (fst cs) r t then apply_batch (update_state (fst cs) (w_op r) (S (snd cs)) t, S (snd cs)) rs' t else apply_batch cs rs' t
    end.
  (** a batch is applied; the oldest applied one committed; the youngest one rejected *)
  Inductive event := EBatch (rs : list wreq) (t : nat) | ECommit | EReject.
  Definition step (n : node) (e : event) : node :=
    match e with
    | EBatch rs t => mkN (n_com n) (n_states n ++ [apply_batch (head n) rs t])
    | ECommit => match n_states n with [] => n | c :: r => mkN c r end
    | EReject => mkN (n_com n) (removelast (n_states n))
    end.
  Definition run (n : node) (es : list event) : node := fold_left step es n.
  Definition init : node := mkN (empty_conf, 0) [].
End Taa.
