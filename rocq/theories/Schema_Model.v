(** Model of the validation of messages: plenum/common/messages/fields.py, message_base.py, client_request.py,
    node_messages.py and the class lookup of node_message_factory.py.  Values are what json.loads gives. *)
From Coq Require Import Ascii String List Arith Bool ZArith.
Import ListNotations.
Local Open Scope Z_scope.

(** Python str: its code points *)
Definition str := list nat.
Definition s (x : string) : str := map nat_of_ascii (list_ascii_of_string x).
Fixpoint str_eqb (a b : str) : bool :=
  match a, b with
  | [], [] => true
  | x :: a', y :: b' => Nat.eqb x y && str_eqb a' b'
  | _, _ => false
  end.

(** The result of json.loads (stp_zmq/zstack.py:881-885).  Of a float only whether it is zero matters here.
    A dict has each key once. *)
Inductive value :=
  | VNull | VBool (b : bool) | VInt (z : Z) | VFloat (nonzero : bool) | VStr (x : str)
  | VList (l : list value) | VDict (d : list (str * value)).
Definition dict := list (str * value).
Fixpoint find {A} (k : str) (d : list (str * A)) : option A :=
  match d with
  | [] => None
  | (k', v) :: rest => if str_eqb k' k then Some v else find k rest
  end.
(** dict.get(k) is None *)
Definition find_nn (k : str) (d : dict) : option value :=
  match find k d with Some VNull => None | o => o end.
(** isinstance(v, int): bool is a subclass of int *)
Definition as_int (v : value) : option Z :=
  match v with VInt z => Some z | VBool true => Some 1 | VBool false => Some 0 | _ => None end.
Definition truthy (v : value) : bool :=
  match v with
  | VNull => false | VBool b => b | VInt z => negb (z =? 0) | VFloat nz => nz
  | VStr x => negb (Nat.eqb (length x) 0) | VList l => negb (Nat.eqb (length l) 0) | VDict d => negb (Nat.eqb (length d) 0)
  end.
Definition len {A} (l : list A) : Z := Z.of_nat (length l).

(** What [validate] does: returns None, returns an error, raises. *)
Inductive exn := TypeError | ValueError | AttributeError.
Inductive res := Good | Bad | Raise (e : exn).
Definition andthen (a : res) (b : res) : res := match a with Good => b | _ => a end.
Definition check (b : bool) : res := if b then Good else Bad.

(** message_base.py, client_request.py: the checks of messages beyond their fields ([_validate_message] of node data
    and [ClientMessageValidator.validate]) *)
Inductive extra := ENone | ENodeData | ERequest.

(** fields.py:23-748: the validators, with their parameters; [KMsg]: a MessageValidator (message_base.py:12-44), not strict
    (constants.py:281-282); [KOperation]: client_request.py:133-167.  Left out: the classes used in no message. *)
Inductive field := mkField (optional nullable : bool) (k : kind)
with kind :=
  | KAny | KBool | KInt | KNonEmpty | KStr (max : Z) (can_be_empty : bool) | KSignature (max : Z) | KRole | KNonNeg
  | KConst (x : str) | KIter (f : field) | KMap (kf vf : field) | KAnyMap | KPort | KIp
  | KChoose (is_set : bool) (xs : list str) | KLedgerId | KBase58 (lens : option (list Z)) | KVerkey | KTimestamp
  | KSerialized | KSeqNo | KSha256 | KNumStr | KLedgerInfo | KMultiSig | KProtocol | KBatchId | KViewChange
  | KMsg (schema : list (str * field)) (e : extra) | KOperation (ops : list (str * field)).
Definition schema := list (str * field).
Definition is_optional (f : field) : bool := let 'mkField o _ _ := f in o.

Definition alphabet : str := s "123456789ABCDEFGHJKLMNPQRSTUVWXYZabcdefghijkmnopqrstuvwxyz".
Fixpoint index (c : nat) (l : str) : option Z :=
  match l with [] => None | x :: r => if Nat.eqb x c then Some 0 else option_map Z.succ (index c r) end.
Definition digit58 (c : nat) : Z := match index c alphabet with Some z => z | None => 0 end.
(** len(base58.b58decode(x)) (external library): leading '1's are zero bytes, the rest is a number *)
Fixpoint b58_length (x : str) : Z :=
  match x with
  | 49%nat :: r => 1 + b58_length r
  | _ => let n := fold_left (fun a c => a * 58 + digit58 c) x 0 in if n =? 0 then 0 else Z.log2 n / 8 + 1
  end.
(** fields.py:354-377 [Base58Field] *)
Definition base58 (lens : option (list Z)) (x : str) : res :=
  if forallb (fun c => match index c alphabet with Some _ => true | None => false end) x then
    match lens with
    | None => Good
    | Some ls => check (existsb (Z.eqb (b58_length x)) ls)
    end
  else Bad.
(** 573-582 [Sha256HexField]: in Python [$] also matches before a newline at the end *)
Definition is_hex (c : nat) : bool :=
  (Nat.leb 48 c && Nat.leb c 57) || (Nat.leb 65 c && Nat.leb c 70) || (Nat.leb 97 c && Nat.leb c 102).
Definition sha256_hex (x : str) : bool :=
  let t := firstn 64 x in
  Nat.eqb (length t) 64 && forallb is_hex t && (Nat.eqb (length x) 64 || str_eqb (skipn 64 x) [10%nat]).
Definition zero_addresses : list str := [s "0.0.0.0"; s "0:0:0:0:0:0:0:0"; s "::"].
Definition oldest_time : Z := 1499906902.
Definition CURRENT_PROTOCOL_VERSION : Z := 2.
Definition BLS_MULTI_SIG_LIMIT : Z := 512.
Definition DIGEST_FIELD_LIMIT : Z := 512.
Definition hashable (v : value) : bool := match v with VList _ | VDict _ => false | _ => true end.
Definition str_in (v : value) (xs : list str) : bool := match v with VStr x => existsb (str_eqb x) xs | _ => false end.

(** The validators without parameters that are used inside others *)
Definition v_nonneg (v : value) : res := match as_int v with Some z => check (0 <=? z) | None => Bad end.
Definition v_nonempty (v : value) : res := match v with VStr x => check (negb (len x =? 0)) | _ => Bad end.
Definition v_str (max : Z) (can_be_empty : bool) (v : value) : res :=
  match v with VStr x => check ((can_be_empty || negb (len x =? 0)) && (len x <=? max)) | _ => Bad end.
Definition v_base58 (lens : option (list Z)) (v : value) : res := match v with VStr x => base58 lens x | _ => Bad end.
Definition v_time (v : value) : res := match as_int v with Some z => check (oldest_time <=? z) | None => Bad end.
Fixpoint each {A} (f : A -> res) (l : list A) : res :=
  match l with [] => Good | x :: r => andthen (f x) (each f r) end.

Section Schema.
  (** ipaddress.ip_address succeeds; int(x) of a string; VALID_LEDGER_IDS + PLUGIN_LEDGER_IDS *)
  Variable ip_ok : str -> bool.
  Variable to_int : str -> option Z.
  Variable ledger_ids : list Z.

  Definition v_ledger_id (v : value) : res := match as_int v with Some z => check (existsb (Z.eqb z) ledger_ids) | None => Bad end.
  (** 450-482 [AbbreviatedVerkeyField], [FullVerkeyField], [VerkeyField] *)
  Definition v_verkey (v : value) : res :=
    match v with
    | VStr x =>
      match x with
      | 126%nat :: r => match base58 (Some [16]) r with Good => Good | _ => base58 (Some [32]) x end
      | _ => base58 (Some [32]) x
      end
    | _ => Bad
    end.
  (** 613-628 [LedgerInfoField] *)
  Definition v_ledger_info (v : value) : res :=
    match v with
    | VList [a; b; c] => andthen (v_ledger_id a) (andthen (v_nonneg b) (v_base58 (Some [32]) c))
    | _ => Bad
    end.
  (** 631-665 [BlsMultiSignatureValueField] with crypto/bls/bls_multi_signature.py:13-44: a wrong number of elements
      or a wrong type is a TypeError *)
  Definition v_multi_sig_value (v : value) : res :=
    match v with
    | VList [a; VStr b; VStr c; VStr d; e] =>
      match as_int a, as_int e with
      | Some _, Some _ =>
        andthen (v_ledger_id a) (andthen (base58 (Some [32]) b) (andthen (base58 (Some [32]) c)
          (andthen (base58 (Some [32]) d) (v_time e))))
      | _, _ => Raise TypeError
      end
    | VList _ => Raise TypeError
    | _ => Bad
    end.
  (** 668-690 [BlsMultiSignatureField]: a wrong number of elements is a ValueError *)
  Definition v_multi_sig (v : value) : res :=
    match v with
    | VList [sig; parts; val] =>
      andthen (v_multi_sig_value val) (andthen (v_str BLS_MULTI_SIG_LIMIT false sig)
        match parts with
        | VList l => andthen (each v_nonempty l) (check (negb (len l =? 0)))
        | _ => Bad
        end)
    | VList _ => Raise ValueError
    | _ => Bad
    end.
  Definition batch_id_fields : list str := [s "view_no"; s "pp_view_no"; s "pp_seq_no"; s "pp_digest"].
  Definition v_batch4 (a b c d : value) : res := andthen (v_nonneg a) (andthen (v_nonneg b) (andthen (v_nonneg c) (v_nonempty d))).
  (** 709-733 [BatchIDField] *)
  Definition v_batch_id (v : value) : res :=
    match v with
    | VList [a; b; c; d] => v_batch4 a b c d
    | VDict m =>
      if negb (len m =? 4) then Bad
      else if negb (forallb (fun '(k, _) => existsb (str_eqb k) batch_id_fields) m) then Bad
      else match map (fun k => find k m) batch_id_fields with
           | [Some a; Some b; Some c; Some d] => v_batch4 a b c d
           | _ => Raise TypeError
           end
    | _ => Bad
    end.
  (** 736-748 [ViewChangeField] *)
  Definition v_view_change (v : value) : res :=
    match v with
    | VList [a; b] => andthen (v_nonempty a) (v_str DIGEST_FIELD_LIMIT false b)
    | _ => Bad
    end.

  (** client_request.py:38-43 and 213-234 *)
  Definition in_sigs (v : value) (sigs : option value) : bool :=
    match sigs with Some (VDict d) => str_in v (map fst d) | _ => false end.
  Definition truthy_o (o : option value) : bool := match o with Some v => truthy v | None => false end.
  Definition ha_fields : list str := [s "node_ip"; s "node_port"; s "client_ip"; s "client_port"].
  Definition v_extra (e : extra) (d : dict) : bool :=
    match e with
    | ENone => true
    | ENodeData =>
      let here := filter (fun k => match find k d with Some _ => true | None => false end) ha_fields in
      (len here =? 0) || (len here =? len ha_fields)
    | ERequest =>
      let identifier := find_nn (s "identifier") d in
      let signatures := find_nn (s "signatures") d in
      let signature := find_nn (s "signature") d in
      let endorser := find_nn (s "endorser") d in
      negb (truthy_o signatures && truthy_o signature)
      && match endorser with
         | None => true
         | Some en => truthy_o signatures && in_sigs en signatures
             && match identifier with Some idr => in_sigs idr signatures | None => false end
         end
      && match identifier with
         | Some idr => negb (truthy idr && truthy_o signatures) || in_sigs idr signatures
         | None => true
         end
      && (truthy_o identifier || truthy_o signatures)
    end.

  (** fields.py:54-72 [FieldBase.validate] with the classes' [_base_types] and [_specific_validation];
      message_base.py:24-44 [MessageValidator.validate], where every error becomes a TypeError *)
  Definition to_error (r : res) : res := match r with Bad => Raise TypeError | _ => r end.
  Fixpoint validate (f : field) (v : value) {struct f} : res :=
    let 'mkField _ nullable k := f in v_kind nullable k v
  with v_kind (nullable : bool) (k : kind) (v : value) {struct k} : res :=
    match k with
    | KMsg sc e =>
      match v with
      | VDict d =>
        if forallb (fun '(n, f) => is_optional f || match find n d with Some _ => true | None => false end) sc then
          andthen
            ((fix go (d : dict) : res :=
                match d with
                | [] => Good
                | (n, x) :: r =>
                  andthen (to_error ((fix look (sc : list (str * field)) : res :=
                                        match sc with
                                        | [] => Good
                                        | (m, f) :: q => if str_eqb m n then validate f x else look q
                                        end) sc)) (go r)
                end) d)
            (if v_extra e d then Good else Raise TypeError)
        else Raise TypeError
      | _ => Raise TypeError
      end
    | KOperation ops =>
      match v with
      | VDict d =>
        match find_nn (s "type") d with
        | None => Raise TypeError
        | Some t =>
          if hashable t then
            (fix look (ops : list (str * field)) : res :=
               match ops with
               | [] => Good
               | (n, f) :: q => if str_in t [n] then validate f v else look q
               end) ops
          else Raise TypeError
        end
      | _ => Raise TypeError
      end
    | _ =>
      if nullable && match v with VNull => true | _ => false end then Good else
      match k with
      | KAny => Good
      | KBool => match v with VBool _ => Good | _ => Bad end
      | KInt => match as_int v with Some _ => Good | None => Bad end
      | KNonEmpty => v_nonempty v
      | KStr max e => v_str max e v
      | KSignature max => match v with VNull => Good | _ => v_str max false v end
      | KRole => match v with VNull | VStr _ => Good | _ => Bad end
      | KNonNeg => v_nonneg v
      | KConst x => match v with VStr y => check (str_eqb y x) | _ => Bad end
      | KIter f =>
        match v with
        | VList l => (fix go (l : list value) : res := match l with [] => Good | x :: r => andthen (validate f x) (go r) end) l
        | _ => Bad
        end
      | KMap kf vf =>
        match v with
        | VDict d =>
          (fix go (d : dict) : res :=
             match d with
             | [] => Good
             | (x, y) :: r => andthen (validate kf (VStr x)) (andthen (validate vf y) (go r))
             end) d
        | _ => Bad
        end
      | KAnyMap => match v with VDict _ => Good | _ => Bad end
      | KPort => match as_int v with Some z => check ((0 <? z) && (z <=? 65535)) | None => Bad end
      | KIp => match v with VStr x => check (ip_ok x && negb (existsb (str_eqb x) zero_addresses)) | _ => Bad end
      | KChoose is_set xs => if is_set && negb (hashable v) then Raise TypeError else check (str_in v xs)
      | KLedgerId => v_ledger_id v
      | KBase58 lens => v_base58 lens v
      | KVerkey => v_verkey v
      | KTimestamp => v_time v
      | KSerialized => match v with VStr x => check (nullable || negb (len x =? 0)) | _ => Bad end
      | KSeqNo => match as_int v with Some z => check (1 <=? z) | None => Bad end
      | KSha256 => match v with VStr x => check (sha256_hex x) | _ => Bad end
      | KNumStr => match v with VStr x => match to_int x with Some z => check (0 <=? z) | None => Bad end | _ => v_nonneg v end
      | KLedgerInfo => v_ledger_info v
      | KMultiSig => v_multi_sig v
      | KProtocol => match as_int v with Some z => check (z =? CURRENT_PROTOCOL_VERSION) | None => Bad end
      | KBatchId => v_batch_id v
      | KViewChange => v_view_change v
      | KMsg _ _ | KOperation _ => Bad
      end
    end.
End Schema.

(** ** The schemas *)
Definition req (k : kind) : field := mkField false false k.
Definition opt (k : kind) : field := mkField true false k.
Definition nul (k : kind) : field := mkField false true k.
Definition optnul (k : kind) : field := mkField true true k.
Definition root : kind := KBase58 (Some [32]).        (* MerkleRootField *)
Definition identifier : kind := KBase58 (Some [16; 32]).   (* IdentifierField, DestNodeField, DestNymField *)
Definition digest : kind := KStr 512 false.          (* LimitedLengthStringField(DIGEST_FIELD_LIMIT) *)
Definition name : kind := KStr 256 false.            (* NAME_FIELD_LIMIT, ALIAS_FIELD_LIMIT, ... *)

(** client_request.py:26-149 *)
Definition node_data : kind := KMsg
  [(s "node_ip", opt KIp); (s "node_port", opt KPort); (s "client_ip", opt KIp); (s "client_port", opt KPort);
   (s "alias", req name); (s "services", opt (KIter (req (KChoose false [s "VALIDATOR"]))));
   (s "blskey", opt (KBase58 (Some [128]))); (s "blskey_pop", opt (KBase58 (Some [128])))] ENodeData.
Definition op_schema (t : string) (sc : schema) : str * field := (s t, req (KMsg ((s "type", req (KConst (s t))) :: sc) ENone)).
Definition operations : list (str * field) :=
  [op_schema "0" [(s "data", req node_data); (s "dest", req identifier); (s "verkey", opt KVerkey)];
   op_schema "1" [(s "alias", opt name); (s "verkey", optnul KVerkey); (s "dest", req identifier); (s "role", opt KRole)];
   op_schema "3" [(s "ledgerId", opt KLedgerId); (s "data", req KSeqNo)];
   op_schema "4" [(s "text", opt (KStr (128 * 1024 - 2048) true)); (s "version", req name);
                  (s "ratification_ts", opt KNonNeg); (s "retirement_ts", opt KNonNeg)];
   op_schema "8" [];
   op_schema "5" [(s "version", req name); (s "aml", req KAnyMap); (s "amlContext", opt (KStr (128 * 1024 - 2048) false))];
   op_schema "6" [(s "version", opt KNonEmpty); (s "digest", opt KNonEmpty); (s "timestamp", opt KNonNeg)];
   op_schema "7" [(s "version", opt KNonEmpty); (s "timestamp", opt KNonNeg)];
   op_schema "9" [(s "ledgers_ids", req (KIter (req KInt)))];
   op_schema "10" []].
(** 170-211 [ClientTAAAcceptance], [ClientMessageValidator] (no plugin fields) *)
Definition taa_acceptance : kind := KMsg
  [(s "taaDigest", req KSha256); (s "mechanism", req (KStr 64 false)); (s "time", req KTimestamp)] ENone.
Definition request_fields : schema :=
  [(s "identifier", optnul identifier); (s "reqId", req KNonNeg); (s "operation", req (KOperation operations));
   (s "signature", opt (KSignature 512)); (s "digest", opt digest); (s "protocolVersion", req KProtocol);
   (s "taaAcceptance", opt taa_acceptance); (s "signatures", optnul (KMap (req identifier) (req (KSignature 512))));
   (s "endorser", opt identifier)].
Definition request : kind := KMsg request_fields ERequest.

(** node_messages.py: what a class does after the check of its fields *)
Inductive post := PNone | PPrePrepare | PViewChange | PNewView | PObserved.
Definition batch_committed : schema :=
  [(s "requests", req (KIter (req request))); (s "ledgerId", req KLedgerId); (s "instId", req KNonNeg); (s "viewNo", req KNonNeg);
   (s "ppSeqNo", req KNonNeg); (s "ppTime", req KTimestamp); (s "stateRootHash", req root); (s "txnRootHash", req root);
   (s "seqNoStart", req KNonNeg); (s "seqNoEnd", req KNonNeg); (s "auditTxnRootHash", nul root);
   (s "primaries", req (KIter (req name))); (s "nodeReg", req (KIter (req name))); (s "originalViewNo", req KNonNeg); (s "digest", req digest)].
Definition checkpoint : schema :=
  [(s "instId", req KNonNeg); (s "viewNo", req KNonNeg); (s "seqNoStart", req KNonNeg); (s "seqNoEnd", req KNonNeg); (s "digest", nul root)].
Definition allowed_types : list str := map s
  ["LEDGER_STATUS"; "CONSISTENCY_PROOF"; "PREPREPARE"; "PREPARE"; "COMMIT"; "PROPAGATE"; "VIEW_CHANGE"; "NEW_VIEW"]%string.
(** node_messages.py:26-573 (node_message_factory.py:31-38: by typename) *)
Definition classes : list (str * (schema * post)) :=
  [(s "BATCH", ([(s "messages", req (KIter (req KSerialized))); (s "signature", req (KSignature 512))], PNone));
   (s "BLACKLIST", ([(s "suspicionCode", req KAny); (s "nodeName", req KAny)], PNone));
   (s "REQACK", ([(s "identifier", req KAny); (s "reqId", req KAny)], PNone));
   (s "REQNACK", ([(s "identifier", req KAny); (s "reqId", req KAny); (s "reason", req KAny); (s "code", opt KInt)], PNone));
   (s "REJECT", ([(s "identifier", req KAny); (s "reqId", req KAny); (s "reason", req KAny); (s "code", optnul KInt)], PNone));
   (s "POOL_LEDGER_TXNS", ([(s "txn", req KAny)], PNone));
   (s "ORDERED", ([(s "instId", req KNonNeg); (s "viewNo", req KNonNeg); (s "valid_reqIdr", req (KIter (req digest)));
      (s "invalid_reqIdr", req (KIter (req digest))); (s "ppSeqNo", req KNonNeg); (s "ppTime", req KTimestamp); (s "ledgerId", req KLedgerId);
      (s "stateRootHash", nul root); (s "txnRootHash", nul root); (s "auditTxnRootHash", nul root); (s "primaries", req (KIter (req name)));
      (s "nodeReg", req (KIter (req name))); (s "originalViewNo", req KNonNeg); (s "digest", req digest); (s "plugin_fields", optnul KAnyMap)], PNone));
   (s "PROPAGATE", ([(s "request", req request); (s "senderClient", nul name)], PNone));
   (s "PREPREPARE", ([(s "instId", req KNonNeg); (s "viewNo", req KNonNeg); (s "ppSeqNo", req KNonNeg); (s "ppTime", req KTimestamp);
      (s "reqIdr", req (KIter (req digest))); (s "discarded", nul KSerialized); (s "digest", req digest); (s "ledgerId", req KLedgerId);
      (s "stateRootHash", nul root); (s "txnRootHash", nul root); (s "sub_seq_no", req KNonNeg); (s "final", req KBool);
      (s "poolStateRootHash", optnul root); (s "auditTxnRootHash", optnul root); (s "blsMultiSig", optnul KMultiSig);
      (s "blsMultiSigs", opt (KIter (optnul KMultiSig))); (s "originalViewNo", optnul KNonNeg); (s "plugin_fields", optnul KAnyMap)], PPrePrepare));
   (s "OLD_VIEW_PREPREPARE_REQ", ([(s "instId", req KNonNeg); (s "batch_ids", req (KIter (req KBatchId)))], PNone));
   (s "OLD_VIEW_PREPREPARE_REP", ([(s "instId", req KNonNeg); (s "preprepares", req (KIter (req KAny)))], PNone));
   (s "PREPARE", ([(s "instId", req KNonNeg); (s "viewNo", req KNonNeg); (s "ppSeqNo", req KNonNeg); (s "ppTime", req KTimestamp);
      (s "digest", req digest); (s "stateRootHash", nul root); (s "txnRootHash", nul root); (s "auditTxnRootHash", optnul root);
      (s "plugin_fields", optnul KAnyMap)], PNone));
   (s "COMMIT", ([(s "instId", req KNonNeg); (s "viewNo", req KNonNeg); (s "ppSeqNo", req KNonNeg); (s "blsSig", opt (KStr 512 false));
      (s "blsSigs", opt (KMap (req KNumStr) (req (KStr 512 false)))); (s "plugin_fields", optnul KAnyMap)], PNone));
   (s "CHECKPOINT", (checkpoint, PNone));
   (s "REPLY", ([(s "result", req KAny)], PNone));
   (s "INSTANCE_CHANGE", ([(s "viewNo", req KNonNeg); (s "reason", req KNonNeg)], PNone));
   (s "BACKUP_INSTANCE_FAULTY", ([(s "viewNo", req KNonNeg); (s "instancesIdr", req (KIter (req KNonNeg))); (s "reason", req KNonNeg)], PNone));
   (s "VIEW_CHANGE", ([(s "viewNo", req KNonNeg); (s "stableCheckpoint", req KNonNeg); (s "prepared", req (KIter (req KBatchId)));
      (s "preprepared", req (KIter (req KBatchId))); (s "checkpoints", req (KIter (req KAny)))], PViewChange));
   (s "VIEW_CHANGE_ACK", ([(s "viewNo", req KNonNeg); (s "name", req name); (s "digest", req digest)], PNone));
   (s "NEW_VIEW", ([(s "viewNo", req KNonNeg); (s "viewChanges", req (KIter (req KViewChange))); (s "checkpoint", req KAny);
      (s "batches", req (KIter (req KBatchId))); (s "primary", opt name)], PNewView));
   (s "LEDGER_STATUS", ([(s "ledgerId", req KLedgerId); (s "txnSeqNo", req KNonNeg); (s "viewNo", nul KNonNeg); (s "ppSeqNo", nul KNonNeg);
      (s "merkleRoot", req root); (s "protocolVersion", req KProtocol)], PNone));
   (s "CONSISTENCY_PROOF", ([(s "ledgerId", req KLedgerId); (s "seqNoStart", req KNonNeg); (s "seqNoEnd", req KNonNeg); (s "viewNo", req KNonNeg);
      (s "ppSeqNo", req KNonNeg); (s "oldMerkleRoot", req root); (s "newMerkleRoot", req root); (s "hashes", req (KIter (req (KStr 256 false))))], PNone));
   (s "CATCHUP_REQ", ([(s "ledgerId", req KLedgerId); (s "seqNoStart", req KNonNeg); (s "seqNoEnd", req KNonNeg); (s "catchupTill", req KNonNeg)], PNone));
   (s "CATCHUP_REP", ([(s "ledgerId", req KLedgerId); (s "txns", req KAny); (s "consProof", req (KIter (req root)))], PNone));
   (s "VIEW_CHANGE_DONE", ([(s "viewNo", req KNonNeg); (s "name", nul name); (s "ledgerInfo", req (KIter (req KLedgerInfo)))], PNone));
   (s "CURRENT_STATE", ([(s "viewNo", req KNonNeg); (s "primary", req (KIter (req KAny)))], PNone));
   (s "MESSAGE_REQUEST", ([(s "msg_type", req (KChoose true allowed_types)); (s "params", req KAnyMap)], PNone));
   (s "MESSAGE_RESPONSE", ([(s "msg_type", req (KChoose true allowed_types)); (s "params", req KAnyMap); (s "msg", req KAny)], PNone));
   (s "BATCH_COMMITTED", (batch_committed, PNone));
   (s "OBSERVED_DATA", ([(s "msg_type", req (KChoose true [s "BATCH"])); (s "msg", req KAny)], PObserved));
   (s "ViewChangeStart", ([(s "proposed_view_no", req KInt)], PNone));
   (s "ViewChangeContinue", ([(s "proposed_view_no", req KInt)], PNone))].

Section Make.
  Variable ip_ok : str -> bool.
  Variable to_int : str -> option Z.
  Variable ledger_ids : list Z.
  Notation validate := (validate ip_ok to_int ledger_ids).

  (** message_base.py:83-109 [MessageBase.__init__], from keyword arguments, without what the classes add *)
  Definition without_op (d : dict) : dict := filter (fun '(k, _) => negb (str_eqb k (s "op"))) d.
  Definition make_fields (sc : schema) (d : dict) : res :=
    match find (s "self") d with
    | Some _ => Raise TypeError (* multiple values for argument 'self' *)
    | None => validate (req (KMsg sc ENone)) (VDict (without_op d))
    end.
  (** request.py:175-180 [SafeRequest], from keyword arguments *)
  Definition make_request (d : dict) : res :=
    match find (s "self") d with Some _ => Raise TypeError | None => validate (req request) (VDict d) end.
  (** node_messages.py:148-163 (PrePrepare), 276-296 (ViewChange: each dict among the checkpoints has to be a
      Checkpoint), 340-350 (NewView), 538-549 (ObservedData; there no other error is raised after the fields) *)
  Definition is_dict (v : value) : bool := match v with VDict _ => true | _ => false end.
  Definition make_checkpoint (v : value) : res := match v with VDict d => make_fields checkpoint d | _ => Good end.
  Definition list_of (o : option value) : list value := match o with Some (VList l) => l | _ => [] end.
  Definition make_post (p : post) (d : dict) : res :=
    match p with
    | PNone => Good
    | PPrePrepare => if existsb (fun v => match v with VNull => true | _ => false end) (list_of (find (s "blsMultiSigs") d)) then Raise TypeError else Good
    | PViewChange => each make_checkpoint (list_of (find (s "checkpoints") d))
    | PNewView => match find (s "checkpoint") d with Some v => make_checkpoint v | None => Good end
    | PObserved => match find (s "msg") d with Some (VDict m) => make_fields batch_committed m | _ => Raise TypeError end
    end.
  Definition make (c : schema * post) (d : dict) : res := andthen (make_fields (fst c) d) (make_post (snd c) d).

  (** node_messages.py:276-296, 340-350: what a ViewChange or a NewView holds after it was made of JSON.  [Obj]: a
      Checkpoint or BatchID object, whose fields are those of the dict; [Raw]: the JSON value itself. *)
  Inductive item := Obj (d : dict) | Raw (v : value).
  Definition dicts (l : list value) : list item := flat_map (fun v => match v with VDict d => [Obj d] | _ => [] end) l.
  Definition view_change_checkpoints (l : list value) : list item := match dicts l with [] => map Raw l | l' => l' end.
  Definition batch_ids (l : list value) : list item := match l with VDict _ :: _ => dicts l | _ => map Raw l end.
  (** node_messages.py:298-306 [ViewChange._asdict], which view_change_digest (view_change_storages.py:12-16) calls when
      the message is processed (view_change_service.py:180) *)
  Definition view_change_asdict (l : list value) : res :=
    each (fun i => match i with Obj _ | Raw (VDict _) => Good | Raw _ => Raise AttributeError end) (view_change_checkpoints l).
  Definition new_view_checkpoint (v : value) : item := match v with VDict d => Obj d | _ => Raw v end.
End Make.
