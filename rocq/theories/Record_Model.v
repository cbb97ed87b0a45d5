(** Model of the way of a request from a wallet into a ledger: plenum/client/wallet.py:163-238, plenum/common/request.py,
    the check of the whole request in plenum/common/messages/client_request.py:212-234, the authentication in
    plenum/server/client_authn.py:84-118, 230-266 and the making of the transaction in plenum/common/txn_util.py:108-345.
    Simplified: identifiers are numbers, so they have no comma in them (the identifier field takes base 58 only) and are
    not empty; the values of an operation are flat; signatures and hashes are ideal: a signature is its signer together
    with what was signed, a hash is what was hashed.  Plugin fields, requests given to [reqToTxn] as dicts or strings and
    the old format of transactions (txn_util.py:276-286) are left out. *)
From Coq Require Import List Arith Bool Lia.
From Verif Require Import Dict.
Import ListNotations.

(** the values in an operation: None, a truth value, a string (by number; 0 is 'True'), a number *)
Inductive val := PNone | PBool (b : bool) | PStr (s : nat) | PInt (n : nat).
Definition val_eqb (a b : val) : bool :=
  match a, b with
  | PNone, PNone => true
  | PBool x, PBool y => Bool.eqb x y
  | PStr x, PStr y | PInt x, PInt y => x =? y
  | _, _ => false
  end.
(** keys of an operation (constants.py: TXN_TYPE, OP_VER, FORCE); the others are the rest *)
Notation K_TYPE := 0.
Notation K_VER := 1.
Notation K_FORCE := 2.
(** constants.py:165-166: '1' for all types but that of the author agreement, '2' for that (here [PStr 4], and the string '2' is [PStr 2]) *)
Definition T_TAA : val := PStr 4.
Definition current_version (ty : val) : nat := if val_eqb ty T_TAA then 2 else 1.

Notation ident := nat (only parsing).
(** What is signed: serialize_msg_for_signing takes the keys in order, so the operation is sorted.
    The identifier may be left out ([None]), be None ([Some None]) or be one or several joined by commas. *)
Record msg := Msg { m_from : option (option (list ident)); m_req_id : option nat; m_op : list (nat * val);
                    m_protocol : option nat; m_taa : option nat; m_endorser : option ident }.
Inductive sig := Sig (by_ : ident) (of : msg) | Junk (n : nat).

Record request := Request { identifier : option ident; req_id : option nat; operation : dict val;
                            signature : option sig; signatures : option (dict sig);
                            protocol : option nat; taa : option nat; endorser : option ident }.

(** Python's [sorted] on pairs with different first components *)
Fixpoint ins {V} (x : nat * V) (l : list (nat * V)) : list (nat * V) :=
  match l with [] => [x] | y :: l' => if fst x <=? fst y then x :: y :: l' else y :: ins x l' end.
Fixpoint sort {V} (l : list (nat * V)) : list (nat * V) := match l with [] => [] | x :: l' => ins x (sort l') end.

(** request.py:158-160 [gen_idr_from_sigs] *)
Definition gen_idr (sigs : option (dict sig)) : option (list ident) :=
  match sigs with Some (x :: l) => Some (map fst (sort (x :: l))) | _ => None end.
(** request.py:144-146 [identifier] *)
Definition author (r : request) : option (list ident) :=
  match identifier r with Some i => Some [i] | None => gen_idr (signatures r) end.
(** request.py:108-123 [signingPayloadState(identifier)] *)
Definition payload_state (r : request) (i : option ident) : msg :=
  Msg (Some (match i with Some x => Some [x] | None => author r end)) (req_id r) (sort (operation r)) (protocol r) (taa r) (endorser r).
(** request.py:96-106 [signingState] *)
Definition full_state (r : request) : msg * option (list (nat * sig)) * option sig :=
  (payload_state r None, option_map sort (signatures r), signature r).

(** *** the wallet *)
(** request.py:162-165 [add_signature] *)
Definition add_signature (r : request) (i : ident) (s : sig) : request :=
  Request (identifier r) (req_id r) (operation r) (signature r)
    (Some (set i s (match signatures r with Some d => d | None => [] end))) (protocol r) (taa r) (endorser r).
(** wallet.py:163-178 [signMsg]: the wallet has the key of [i] *)
Definition sign (i : ident) (m : msg) : sig := Sig i m.
(** wallet.py:180-203 [signRequest], by [i], with the new number [n] *)
Definition sign_request (r : request) (i : ident) (n : nat) : request :=
  let r1 := Request (Some i) (Some n) (operation r) (signature r) (signatures r) (protocol r) (taa r) (endorser r) in
  Request (Some i) (Some n) (operation r) (Some (sign i (payload_state r1 (Some i)))) (signatures r) (protocol r) (taa r) (endorser r).
(** wallet.py:218-222 [do_multi_sig_on_req] *)
Definition multi_sign (r : request) (i : ident) : request := add_signature r i (sign i (payload_state r None)).

(** a request with its cached digests: request.py:36-37, 42-53 *)
Record obj := Obj { o_req : request; o_digest : option (msg * option (list (nat * sig)) * option sig); o_payload : option msg }.
Definition new_obj (r : request) : obj := Obj r None None.
Definition read_digest (o : obj) : obj * (msg * option (list (nat * sig)) * option sig) :=
  match o_digest o with
  | Some d => (o, d)
  | None => let d := full_state (o_req o) in (Obj (o_req o) (Some d) (o_payload o), d)
  end.
Definition read_payload_digest (o : obj) : obj * msg :=
  match o_payload o with
  | Some d => (o, d)
  | None => let d := payload_state (o_req o) None in (Obj (o_req o) (o_digest o) (Some d), d)
  end.
Inductive use := USign (i : ident) (n : nat) | UMulti (i : ident) | UDigest | UPayload.
Definition use_step (o : obj) (u : use) : obj :=
  match u with
  | USign i n => Obj (sign_request (o_req o) i n) (o_digest o) (o_payload o)
  | UMulti i => Obj (multi_sign (o_req o) i) (o_digest o) (o_payload o)
  | UDigest => fst (read_digest o)
  | UPayload => fst (read_payload_digest o)
  end.
Definition uses (o : obj) (us : list use) : obj := fold_left use_step us o.

(** *** the node *)
Definition has {V} (k : nat) (d : option (dict V)) : bool := match d with Some l => match get k l with Some _ => true | None => false end | None => false end.
Definition truthy {V} (d : option (dict V)) : bool := match d with Some (_ :: _) => true | _ => false end.
Definition is_some {A} (o : option A) : bool := match o with Some _ => true | None => false end.
(** client_request.py:181-195, 212-234: the type of the operation and the number are there, the protocol is the
    current one (2), and the checks on who signs.  The other checks of fields are in Schema_Model.v. *)
Definition validate (r : request) : bool :=
  match get K_TYPE (operation r) with Some (PStr _) => true | _ => false end
  && is_some (req_id r)
  && match protocol r with Some p => p =? 2 | None => false end
  && negb (truthy (signatures r) && is_some (signature r))
  && match endorser r with
     | None => true
     | Some e => has e (signatures r) && match identifier r with None => false | Some i => has i (signatures r) end
     end
  && match identifier r with
     | Some i => if truthy (signatures r) then has i (signatures r) else true
     | None => truthy (signatures r)
     end.

(** client_authn.py:242-243: what was signed, for the node: the request as a dict (request.py:56-75) without signatures *)
Definition to_serialize (r : request) : msg :=
  Msg (match identifier r with Some i => Some (Some [i]) | None => None end) (req_id r) (sort (operation r)) (protocol r) (taa r) (endorser r).

Definition opt_eqb {A} (e : A -> A -> bool) (a b : option A) : bool :=
  match a, b with Some x, Some y => e x y | None, None => true | _, _ => false end.
Fixpoint list_eqb {A} (e : A -> A -> bool) (a b : list A) : bool :=
  match a, b with [], [] => true | x :: a', y :: b' => e x y && list_eqb e a' b' | _, _ => false end.
Definition item_eqb (a b : nat * val) : bool := (fst a =? fst b) && val_eqb (snd a) (snd b).
Definition msg_eqb (a b : msg) : bool :=
  opt_eqb (opt_eqb (list_eqb Nat.eqb)) (m_from a) (m_from b) && opt_eqb Nat.eqb (m_req_id a) (m_req_id b)
  && list_eqb item_eqb (m_op a) (m_op b) && opt_eqb Nat.eqb (m_protocol a) (m_protocol b)
  && opt_eqb Nat.eqb (m_taa a) (m_taa b) && opt_eqb Nat.eqb (m_endorser a) (m_endorser b).
(** the check of an ideal signature with the key of [i] *)
Definition verify (i : ident) (m : msg) (s : sig) : bool :=
  match s with Sig j m' => (i =? j) && msg_eqb m m' | Junk _ => false end.

Section Authn.
  (** client_authn.py:153-168 [getVerkey]: who has a key *)
  Variable known : ident -> bool.
  (** client_authn.py:94-118: the loop; [None]: an exception *)
  Fixpoint auth_loop (m : msg) (th : nat) (sigs : dict sig) (correct : list ident) : option (list ident) :=
    match sigs with
    | [] => None
    | (i, s) :: rest =>
        if negb (known i) then None
        else if verify i m s
        then let c := correct ++ [i] in if length c =? th then Some c else auth_loop m th rest c
        else auth_loop m th rest correct
    end.
  (** client_authn.py:84-92 [authenticate_multi] *)
  Definition authenticate_multi (m : msg) (sigs : dict sig) (threshold : option nat) : option (list ident) :=
    match threshold with
    | Some th => if length sigs <? th then None else auth_loop m th sigs []
    | None => auth_loop m (length sigs) sigs []
    end.
  (** client_authn.py:242-266: the signatures looked at *)
  Definition to_check (r : request) : option (dict sig) :=
    match signature r, signatures r with
    | None, None => None
    | _, _ => match identifier r, signature r with Some i, Some s => Some [(i, s)] | _, _ => signatures r end
    end.
  (** client_authn.py:230-266 [authenticate], as the nodes call it: without identifier and signature *)
  Definition authenticate (r : request) (threshold : option nat) : option (list ident) :=
    match to_check r with Some d => authenticate_multi (to_serialize r) d threshold | None => None end.
End Authn.

(** *** the transaction *)
Record txn := Txn { t_type : val; t_protocol : option nat; t_version : option val; t_data : dict val;
                    t_from : option ident; t_req_id : option nat; t_taa : option nat;
                    t_digest : option (msg * option (list (nat * sig)) * option sig); t_payload_digest : option msg;
                    t_endorser : option ident;
                    t_sigs : option (list (option ident * sig)) (* [None]: no type and no values *) }.

(** [d.pop(k, None)] *)
Definition pop (k : nat) (d : dict val) : val := match get k d with Some v => v | None => PNone end.
(** txn_util.py:183-207 [init_empty_txn]: the protocol, [if protocol_version] *)
Definition txn_protocol (p : option nat) : option nat := match p with Some 0 => None | _ => p end.
(** txn_util.py:196-199: the version of the payload *)
Definition txn_version (ty ver : val) : option val :=
  match ver with PNone => if 1 <? current_version ty then Some (PStr (current_version ty)) else None | _ => Some ver end.
(** txn_util.py:296-303, 324-336: the signatures *)
Definition txn_sigs (r : request) : option (list (option ident * sig)) :=
  match signature r, signatures r with
  | None, None => None
  | Some s, _ => Some [(identifier r, s)]
  | None, Some d => Some (map (fun x => (Some (fst x), snd x)) (sort d))
  end.
(** txn_util.py:242-273, 289-321 [reqToTxn], [do_req_to_txn] *)
Definition req_to_txn (o : obj) : txn :=
  let r := o_req o in
  let (o1, d) := read_digest o in
  let (_, pd) := read_payload_digest o1 in
  let ty := pop K_TYPE (operation r) in
  let op1 := del K_TYPE (operation r) in
  Txn ty (txn_protocol (protocol r)) (txn_version ty (pop K_VER op1)) (del K_VER op1)
      (identifier r) (req_id r) (taa r) (Some d) (Some pd) (endorser r) (txn_sigs r).

(** txn_util.py:111-180: the readers *)
Definition get_type (t : txn) : val := t_type t.
Definition get_payload_data (t : txn) : dict val := t_data t.
Definition get_from (t : txn) : option ident := t_from t.
Definition get_endorser (t : txn) : option ident := t_endorser t.
Definition get_req_id (t : txn) : option nat := t_req_id t.
Definition get_digest (t : txn) : option (msg * option (list (nat * sig)) * option sig) :=
  match t_payload_digest t with Some _ => t_digest t | None => None end.
Definition get_protocol_version (t : txn) : option nat := t_protocol t.
Definition get_payload_txn_version (t : txn) : option val := t_version t.
Definition str_is_true (v : val) : bool := match v with PBool b => b | PStr s => s =? 0 | _ => false end.
(** txn_util.py:176-180 *)
Definition is_forced (t : txn) : bool := match get K_FORCE (t_data t) with Some PNone | None => false | Some v => str_is_true v end.
(** request.py:136-138 [isForced] *)
Definition req_is_forced (r : request) : bool := str_is_true (pop K_FORCE (operation r)).
