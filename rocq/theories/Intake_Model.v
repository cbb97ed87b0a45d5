(** Model of the intake of messages: from the transport (stp_zmq/zstack.py, plenum/common/batched.py) through the
    checks of node.py to the inboxes.  A message is what json.loads gives (other input is dropped, zstack.py:637-641). *)
From Coq Require Import Ascii String List Arith Bool ZArith.
From Verif Require Import Schema_Model.
Import ListNotations.

(** An exception, and whether it has args *)
Inductive fault := Fault (args : bool).
(** The outcome of static validation and of the verification of signatures *)
Inductive verdict := Pass | Fail (f : fault).

(** What becomes of a message: it is put in the inbox, answered with a NACK (to an author, for a request number), or
    left. *)
Inductive out := Posted (cls : str) (d : dict) | Nack (idr : option value) (req_id : value) | Left.
(** The node goes on, or an exception escapes to the event loop (stp_core/loop/looper.py) and the node stops. *)
Inductive fate := GoesOn (o : list out) | Stops (o : list out).

Definition is_str (v : value) (x : string) : bool := match v with VStr y => str_eqb y (s x) | _ => false end.
Definition get (k : string) (d : dict) : option value := find (s k) d.
(** dict.get(k): None for a missing key *)
Definition get_ (k : string) (d : dict) : value := match get k d with Some v => v | None => VNull end.

Section Intake.
  Variable ip_ok : str -> bool.
  Variable to_int : str -> option Z.
  Variable ledger_ids : list Z.
  (** json.loads of the messages in a Batch *)
  Variable parse : str -> option value.
  (** node.py:1944 [doStaticValidation]; whether the type is of a query; the verification of given signatures *)
  Variable static : dict -> verdict.
  Variable is_query : value -> bool.
  Variable auth : dict -> verdict.
  (** the sender is blacklisted; a view change is in progress and the request needs a quorum (node.py:1683-1689) *)
  Variable blacklisted : bool.
  Variable held_back : dict -> bool.
  Notation make := (make ip_ok to_int ledger_ids).
  Notation make_request := (make_request ip_ok to_int ledger_ids).

  (** request.py:14, 159-160: the signers joined by commas (here not sorted) *)
  Fixpoint join (l : list str) : str :=
    match l with [] => [] | [x] => x | x :: r => x ++ 44%nat :: join r end.
  (** txn_util.py:59-63: None if it raises AttributeError *)
  Definition idr_of (d : dict) : option (option value) :=
    if truthy (get_ "identifier" d) then Some (get "identifier" d)
    else let sigs := get_ "signatures" d in
         if truthy sigs then match sigs with VDict m => Some (Some (VStr (join (map fst m)))) | _ => None end
         else Some None.

  (** client_authn.py:230-265 and req_authenticator.py:23-51: a request of no query without a signature is a
      MissingSignature, raised without args *)
  Definition verify (d : dict) : verdict :=
    match static d with
    | Fail f => Fail f
    | Pass =>
      let typ := match get "operation" d with Some (VDict o) => get_ "type" o | _ => VNull end in
      if is_query typ then Pass
      else match find_nn (s "signature") d, find_nn (s "signatures") d with
           | None, None => Fail (Fault false)
           | _, _ => auth d
           end
    end.

  Inductive checked := CLeft | COk (cls : str) (d : dict) | CBad (f : fault).
  Definition in_names (x : str) (l : list string) : bool := existsb (fun y => str_eqb x (s y)) l.
  (** node.py:1618-1657 [validateClientMsg] *)
  Definition validate_client (v : value) : checked :=
    if blacklisted then CLeft else
    match v with
    | VDict d =>
      match idr_of d with
      | None => CBad (Fault true)
      | Some i =>
        if truthy (get_ "operation" d) && truthy (get_ "reqId" d) && match i with Some x => truthy x | None => false end then
          match make_request d with
          | Good => match verify d with Pass => COk (s "REQUEST") d | Fail f => CBad f end
          | _ => CBad (Fault true)
          end
        else
          match get "op" d with
          | Some (VStr cls) =>
            if in_names cls ["BATCH"; "LEDGER_STATUS"; "CATCHUP_REQ"]%string then
              match find cls classes with
              | Some c => match make c d with Good => COk cls d | _ => CBad (Fault true) end
              | None => CBad (Fault true)
              end
            else CBad (Fault true)
          | _ => CBad (Fault true)
          end
      end
    | _ => CBad (Fault true)                  (* msg.get: AttributeError *)
    end.

  (** node.py:1577-1612 [handleInvalidClientMsg] with [_specific_invalid_client_msg_handling]: the NACKs sent, and the
      exception that escapes.  Left out: the LedgerStatus sent back for a wrong one. *)
  Definition invalid (f : fault) (v : value) : list out * option fault :=
    match v with
    | VDict d =>
      match idr_of d with
      | None => ([], Some (Fault true))
      | Some i =>
        let n := Nack i (let r := get_ "reqId" d in if truthy r then r else VInt 1) in
        if is_str (get_ "op" d) "LEDGER_STATUS" then
          match f with Fault true => ([n], None) | Fault false => ([n], Some (Fault true)) end
        else ([n], None)
      end
    | _ => ([], Some (Fault true))
    end.

  Definition ping (x : str) : bool := str_eqb x (s "pi") || str_eqb x (s "po").
  (** the [messages] of a Batch, strings by its schema *)
  Definition messages (d : dict) : list str :=
    flat_map (fun v => match v with VStr x => [x] | _ => [] end) (list_of (get "messages" d)).

  (** node.py:1557-1575 [handleOneClientMsg], 1659-1692 [unpackClientMsg].  [depth]: Python's recursion limit. *)
  Fixpoint handle_client (depth : nat) (v : value) : list out * option fault :=
    match depth with
    | 0%nat => ([], Some (Fault true))
    | S n =>
      match validate_client v with
      | CLeft => ([Left], None)
      | CBad f => invalid f v
      | COk cls d =>
        if str_eqb cls (s "BATCH") then
          let '(o, e) :=
            (fix each_m (l : list str) : list out * option fault :=
               match l with
               | [] => ([], None)
               | x :: r =>
                 if ping x then each_m r
                 else match parse x with
                      | None => ([], Some (Fault true))
                      | Some m =>
                        let '(o, e) := handle_client n m in
                        match e with
                        | Some f => (o, Some f)
                        | None => let '(o', e') := each_m r in (o ++ o', e')
                        end
                      end
               end) (messages d) in
          match e with
          | None => (o, None)
          | Some f => let '(o', e') := invalid f v in (o ++ o', e')
          end
        else if str_eqb cls (s "REQUEST") && held_back d then ([Left], None)
        else ([Posted cls d], None)
      end
    end.

  (** node.py:411-431 [authnWhitelist] *)
  Definition whitelist : list string :=
    ["BATCH"; "PREPREPARE"; "PREPARE"; "CHECKPOINT"; "COMMIT"; "INSTANCE_CHANGE"; "LEDGER_STATUS"; "CONSISTENCY_PROOF";
     "CATCHUP_REQ"; "CATCHUP_REP"; "MESSAGE_REQUEST"; "MESSAGE_RESPONSE"; "OBSERVED_DATA"; "BACKUP_INSTANCE_FAULTY";
     "VIEW_CHANGE"; "VIEW_CHANGE_ACK"; "NEW_VIEW"; "OLD_VIEW_PREPREPARE_REQ"; "OLD_VIEW_PREPREPARE_REP"]%string.
  (** node.py:435-455 [nodeMsgRouter], 457-461 [clientMsgRouter] *)
  Definition node_routes : list string :=
    ["PROPAGATE"; "INSTANCE_CHANGE"; "MESSAGE_REQUEST"; "MESSAGE_RESPONSE"; "PREPREPARE"; "PREPARE"; "COMMIT"; "CHECKPOINT";
     "VIEW_CHANGE"; "VIEW_CHANGE_ACK"; "NEW_VIEW"; "OLD_VIEW_PREPREPARE_REQ"; "OLD_VIEW_PREPREPARE_REP"; "LEDGER_STATUS";
     "CONSISTENCY_PROOF"; "CATCHUP_REQ"; "CATCHUP_REP"; "OBSERVED_DATA"; "BACKUP_INSTANCE_FAULTY"]%string.
  Definition client_routes : list string := ["REQUEST"; "LEDGER_STATUS"; "CATCHUP_REQ"]%string.
  (** node.py:2624-2655 [verifySignature]: other classes than these are no Mapping with a key 'operation': an error.
      The request of a Propagate is made anew (SafeRequest). *)
  Definition verify_node (cls : str) (d : dict) : bool :=
    in_names cls whitelist
    || str_eqb cls (s "PROPAGATE") &&
       match get "request" d with
       | Some (VDict r) =>
         match make_request r with
         | Good => match (if is_query (match get "operation" r with Some (VDict o) => get_ "type" o | _ => VNull end) then Pass
                          else match find_nn (s "signature") r, find_nn (s "signatures") r with None, None => Fail (Fault false) | _, _ => auth r end) with
                   | Pass => true | Fail _ => false end
         | _ => false
         end
       | _ => false
       end.
  (** node_message_factory.py:40-52 [get_instance] and node.py:1480-1508 [validateNodeMsg] *)
  Definition validate_node (v : value) : option (str * dict) :=
    if blacklisted then None else
    match v with
    | VDict d =>
      match find (s "self") d with Some _ => None | None =>
      match get_ "op" d with
      | VStr cls =>
        match find cls classes with
        | Some c => match make c d with Good => if verify_node cls d then Some (cls, d) else None | _ => None end
        | None => None
        end
      | _ => None
      end end
    | _ => None
    end.
  (** node.py:1456-1477 [handleOneNodeMsg]: every exception is caught; 1510-1534 [unpackNodeMsg] *)
  Fixpoint handle_node (depth : nat) (v : value) : list out :=
    match depth with
    | 0%nat => []
    | S n =>
      match validate_node v with
      | None => [Left]
      | Some (cls, d) =>
        if str_eqb cls (s "BATCH") then
          (fix each_m (l : list str) : list out :=
             match l with
             | [] => []
             | x :: r => match parse x with None => each_m r | Some m => handle_node n m ++ each_m r end
             end) (messages d)
        else [Posted cls d]
      end
    end.

  (** [x in y] for strings *)
  Fixpoint prefix_of (p x : str) : bool :=
    match p, x with
    | [], _ => true
    | a :: p', b :: x' => Nat.eqb a b && prefix_of p' x'
    | _, [] => false
    end.
  Fixpoint substring (p x : str) : bool := prefix_of p x || match x with [] => false | _ :: r => substring p r end.
  (** zstack.py:643: [OP_FIELD_NAME not in msg or msg[OP_FIELD_NAME] != BATCH]; None: it raises TypeError *)
  Definition op_test (v : value) : option bool :=
    match v with
    | VDict d => match get "op" d with Some o => Some (negb (is_str o "BATCH")) | None => Some true end
    | VStr x => if substring (s "op") x then None else Some true
    | VList l => if existsb (fun y => is_str y "op") l then None else Some true
    | _ => None
    end.
  (** zstack.py:606-646 [processReceived] of the stack for clients *)
  Definition receive_client (depth : nat) (v : value) : fate :=
    match op_test v with
    | None => Stops []
    | Some _ =>
      if truthy v then match handle_client depth v with (o, None) => GoesOn o | (o, Some _) => Stops o end
      else GoesOn []
    end.
  (** batched.py:161-173 [doProcessReceived]: pings and pongs are taken out of a Batch *)
  Definition set_key (k : str) (x : value) (d : dict) : dict := map (fun '(k', y) => if str_eqb k' k then (k', x) else (k', y)) d.
  Definition strip (v : value) : option value :=
    match v with
    | VDict d =>
      match get "op" d with
      | Some o =>
        if is_str o "BATCH" then
          match get "messages" d with
          | Some (VList l) =>
            match filter (fun y => match y with VStr x => negb (ping x) | _ => true end) l with
            | [] => None
            | l' => Some (VDict (set_key (s "messages") (VList l') d))
            end
          | _ => Some v
          end
        else Some v
      | None => Some v
      end
    | _ => Some v
    end.
  (** the same of the stack for nodes *)
  Definition receive_node (depth : nat) (v : value) : fate :=
    match op_test v with
    | None => Stops []
    | Some _ =>
      match strip v with
      | None => GoesOn []
      | Some v' => if truthy v' then GoesOn (handle_node depth v') else GoesOn []
      end
    end.
End Intake.
