(** C79: no message stops the node. *)
From Coq Require Import Ascii String List Arith Bool ZArith Lia.
From Verif Require Import Schema_Model Schema_Spec Schema_Proofs Intake_Model Intake_Spec Intake_Proofs.
Import ListNotations.

Section C79.
  Variable ip_ok : str -> bool.
  Variable to_int : str -> option Z.
  Variable ledger_ids : list Z.
  Variable parse : str -> option value.
  Variable static : dict -> verdict.
  Variable is_query : value -> bool.
  Variable auth : dict -> verdict.
  Variable blacklisted : bool.
  Variable held_back : dict -> bool.
  Notation make := (make ip_ok to_int ledger_ids).
  Notation make_request := (make_request ip_ok to_int ledger_ids).
  Notation verify := (verify static is_query auth).
  Notation receive_client := (receive_client ip_ok to_int ledger_ids parse static is_query auth blacklisted held_back).
  Notation receive_node := (receive_node ip_ok to_int ledger_ids parse is_query auth blacklisted).

  (** Exactly the messages with which a client stops a node: no dict (but for the empty list, the empty string, and
      what a blacklisted client sends without "op"); a dict without author and with signatures that are no dict; a well-formed
      request with the field op = LEDGER_STATUS that is refused by an exception without args, such as for a missing
      signature.  Every other message, in Batches of any depth, leaves the node running. *)
  Theorem C79_client_partial n v : (exists o, receive_client (S n) v = Stops o) <->
    odd_shape v \/ (blacklisted = false /\ (no_dict v \/ exists d, v = VDict d /\
      (bad_signatures d \/ (has_op "LEDGER_STATUS" d /\ request_like d /\ make_request d = Good /\ verify d = Fail (Fault false))))).
  Proof.
    pose proof (client_stops ip_ok to_int ledger_ids parse static is_query auth blacklisted held_back n v) as K.
    unfold Intake_Model.receive_client. destruct (op_test v) as [b|] eqn:O.
    - assert (~ odd_shape v) as N by (intros X; apply op_test_spec in X; congruence).
      destruct (truthy v) eqn:T.
      + destruct (handle_client _ _ _ _ _ _ _ _ _ (S n) v) as [o [f|]]; cbn [snd] in K.
        * split; [intros _; right|intros _; exists o; reflexivity]. destruct (proj1 K ltac:(discriminate)) as [B H]. split; [exact B|].
          destruct H as [H|H]; [left; split; [exact H|exact T]|right; exact H].
        * split; [intros (x & E); discriminate E|]. intros [X|[B H]]; [contradiction|]. exfalso. apply (proj2 K); [|reflexivity]. split; [exact B|].
          destruct H as [[H _]|H]; [left; exact H|right; exact H].
      + split; [intros (x & E); discriminate E|]. intros [X|[B [[_ X]|(d & -> & H)]]]; [contradiction|congruence|]. exfalso.
        destruct d as [|p d]; [|discriminate T]. destruct H as [(_ & w & F & _)|(F & _)]; discriminate F.
    - apply op_test_spec in O. split; [auto|]. intros _. exists []. reflexivity.
  Qed.
  (** Exactly the messages with which a node stops another: null, a boolean, a number; a string or a list with "op" in
      it. *)
  Theorem C79_node_partial n v : (exists o, receive_node n v = Stops o) <-> odd_shape v.
  Proof.
    unfold Intake_Model.receive_node. rewrite <- op_test_spec. destruct (op_test v) as [b|].
    - split; [|discriminate]. intros (o & E). destruct (strip v) as [w|]; [|discriminate E]. destruct (truthy w); discriminate E.
    - split; [reflexivity|]. intros _. exists []. reflexivity.
  Qed.
  (** In particular no dict of a node does, whatever is in it. *)
  Theorem C79_node_dict n d : exists o, receive_node n (VDict d) = GoesOn o.
  Proof.
    destruct (receive_node n (VDict d)) as [o|o] eqn:E; [exists o; reflexivity|]. exfalso.
    apply (proj1 (C79_node_partial n (VDict d))). exists o. exact E.
  Qed.

  (** What a client's message puts in the inbox is well formed, has a handler, and, if it is a request, has passed static
      validation and the verification of its signatures; also out of Batches. *)
  Theorem C79_client_inbox n v cls d : In (Posted cls d) (outs (receive_client n v)) ->
    (cls = s "REQUEST" /\ make_request d = Good /\ static d = Pass /\ verify d = Pass) \/
    exists y c, In y ["LEDGER_STATUS"; "CATCHUP_REQ"]%string /\ cls = s y /\ find cls classes = Some c /\ make c d = Good.
  Proof.
    intros I. assert (In (Posted cls d) (fst (handle_client ip_ok to_int ledger_ids parse static is_query auth blacklisted held_back n v))) as J.
    { unfold Intake_Model.receive_client in I. destruct (op_test v); [|destruct I]. destruct (truthy v); [|destruct I].
      destruct (handle_client _ _ _ _ _ _ _ _ _ n v) as [o [f|]]; exact I. }
    apply posted_ok in J. destruct J as [(E & M & V)|H]; [left|right; exact H]. split; [exact E|]. split; [exact M|]. split; [|exact V].
    unfold Intake_Model.verify in V. destruct (static d); [reflexivity|discriminate V].
  Qed.
  (** The same for nodes: everything put in the inbox is well formed and has a handler; the request in a Propagate is
      well formed and its signatures are verified. *)
  Theorem C79_node_inbox n v cls d : In (Posted cls d) (outs (receive_node n v)) ->
    exists y c, In y node_routes /\ cls = s y /\ find cls classes = Some c /\ make c d = Good /\
      (y = "PROPAGATE"%string -> exists r, find (s "request") d = Some (VDict r) /\ make_request r = Good /\
         (is_query (match get "operation" r with Some (VDict o) => get_ "type" o | _ => VNull end) = true \/
          ((exists x, find_nn (s "signature") r = Some x \/ find_nn (s "signatures") r = Some x) /\ auth r = Pass))).
  Proof.
    intros I. unfold Intake_Model.receive_node in I. destruct (op_test v); [|destruct I]. destruct (strip v) as [w|]; [|destruct I].
    destruct (truthy w); [|destruct I]. exact (node_posted_ok _ _ _ _ _ _ _ n w _ I).
  Qed.
  (** A dict from a client that is no Batch is put in the inbox, or answered by one NACK for its author and number; or it
      is a good request held back in a view change.  (Not so if the signatures stop the node.) *)
  Theorem C79_answered n d : blacklisted = false -> d <> [] -> ~ has_op "BATCH" d \/ request_like d -> ~ bad_signatures d ->
    let o := outs (receive_client (S n) (VDict d)) in
    (exists cls, o = [Posted cls d]) \/ (o = [Left] /\ held_back d = true /\ make_request d = Good /\ verify d = Pass) \/
    exists i, idr_of d = Some i /\ o = [Nack i (if truthy (get_ "reqId" d) then get_ "reqId" d else VInt 1)].
  Proof.
    intros B N H S1. cbv zeta. pose proof (answered ip_ok to_int ledger_ids parse static is_query auth blacklisted held_back n d B H S1) as A. cbv zeta in A.
    unfold Intake_Model.receive_client. destruct (op_test (VDict d)) as [b|] eqn:O; [|apply op_test_spec in O; destruct O].
    destruct d as [|p d]; [contradiction|]. cbn [truthy length Nat.eqb negb]. destruct (handle_client _ _ _ _ _ _ _ _ _ (S n) (VDict (p :: d))) as [o [f|]]; exact A.
  Qed.
  (** Nothing good is refused: a well-formed message of a node, of a class that has a handler, is put in the inbox; a Propagate if its
      request is well formed and its signatures are good (or it needs none). *)
  Theorem C79_node_posted n y c d : blacklisted = false -> In y node_routes -> find (s "op") d = Some (VStr (s y)) -> find (s "self") d = None ->
    find (s y) classes = Some c -> make c d = Good ->
    (y = "PROPAGATE"%string -> exists r, find (s "request") d = Some (VDict r) /\ make_request r = Good /\
         (is_query (match get "operation" r with Some (VDict o) => get_ "type" o | _ => VNull end) = true \/
          ((exists x, find_nn (s "signature") r = Some x \/ find_nn (s "signatures") r = Some x) /\ auth r = Pass))) ->
    receive_node (S n) (VDict d) = GoesOn [Posted (s y) d].
  Proof.
    intros B Y O F C G P. unfold Intake_Model.receive_node, op_test, strip, get. rewrite O.
    assert (is_str (VStr (s y)) "BATCH" = false) as NB.
    { cbn in Y. repeat (destruct Y as [<- |Y]; [reflexivity|]). destruct Y. }
    rewrite NB. assert (truthy (VDict d) = true) as -> by (destruct d; [discriminate O|reflexivity]).
    rewrite handle_node_S. unfold validate_node. rewrite B, F. unfold get_, get. rewrite O, C, G.
    assert (verify_node ip_ok to_int ledger_ids is_query auth (s y) d = true) as ->.
    { unfold verify_node. destruct (string_dec y "PROPAGATE") as [-> |N].
      - destruct (P eq_refl) as (r & R & M & V). unfold get at 1. rewrite R, M. apply orb_true_iff. right.
        destruct V as [-> |[(x & V) A]]; [reflexivity|]. destruct (is_query _); [reflexivity|].
        destruct (find_nn (s "signature") r), (find_nn (s "signatures") r); try (rewrite A; reflexivity). destruct V; discriminate.
      - cbn in Y. destruct Y as [<- |Y]; [contradiction|]. repeat (destruct Y as [<- |Y]; [reflexivity|]). destruct Y. }
    cbn [is_str] in NB. rewrite NB. reflexivity.
  Qed.
  (** The same for a request of a client, unless it is held back in a view change. *)
  Theorem C79_client_posted n d : blacklisted = false -> request_like d -> make_request d = Good -> verify d = Pass -> held_back d = false ->
    receive_client (S n) (VDict d) = GoesOn [Posted (s "REQUEST") d].
  Proof.
    intros B (R1 & R2 & R3) M V Hb. unfold Intake_Model.receive_client. destruct (op_test (VDict d)) as [b|] eqn:O; [|apply op_test_spec in O; destruct O].
    assert (truthy (VDict d) = true) as ->. { destruct R1 as (x & G & _). destruct d; [discriminate G|reflexivity]. }
    rewrite handle_client_S. assert (validate_client ip_ok to_int ledger_ids static is_query auth blacklisted (VDict d) = COk (s "REQUEST") d) as ->.
    { unfold Intake_Model.validate_client. rewrite B. destruct (idr_of d) as [i|] eqn:E.
      2:{ apply idr_none in E. destruct E as (E1 & w & E2 & _ & E3). destruct R3 as [R3|(m & R3 & _)]; [contradiction|]. rewrite R3 in E2. injection E2 as <-. exfalso. exact (E3 m eq_refl). }
      assert (truthy (get_ "operation" d) && truthy (get_ "reqId" d) && match i with Some x => truthy x | None => false end = true) as ->.
      { rewrite !andb_true_iff, !get_truthy, (idr_some_truthy d i E). auto. }
      rewrite M, V. reflexivity. }
    rewrite Hb. reflexivity.
  Qed.
  (** A Batch of a node is as good as its messages one by one. *)
  Theorem C79_node_batch n v cls d : validate_node ip_ok to_int ledger_ids is_query auth blacklisted v = Some (cls, d) -> cls = s "BATCH" ->
    handle_node ip_ok to_int ledger_ids parse is_query auth blacklisted (S n) v =
    flat_map (fun x => match parse x with Some m => handle_node ip_ok to_int ledger_ids parse is_query auth blacklisted n m | None => [] end) (messages d).
  Proof.
    intros V ->. rewrite handle_node_S, V, str_eqb_refl. generalize (messages d). induction l as [|x l IH]; [reflexivity|].
    cbn [node_loop flat_map]. destruct (parse x); cbn [app]; rewrite <- IH; reflexivity.
  Qed.
End C79.
Print Assumptions C79_client_partial.
Print Assumptions C79_node_partial.
Print Assumptions C79_node_dict.
Print Assumptions C79_client_inbox.
Print Assumptions C79_node_inbox.
Print Assumptions C79_answered.
Print Assumptions C79_node_posted.
Print Assumptions C79_client_posted.
Print Assumptions C79_node_batch.

(** ** Examples *)
Definition str_ (x : string) : value := VStr (s x).
Definition ids : list Z := [0; 1; 2; 3]%Z.
Definition root32 : value := str_ "11111111111111111111111111111111".
Definition a_request (more : dict) : dict :=
  more ++ [(s "identifier", str_ "1111111111111111"); (s "reqId", VInt 7); (s "protocolVersion", VInt 2);
   (s "operation", VDict [(s "type", str_ "1"); (s "dest", str_ "1111111111111111")])].
Definition a_status : dict :=
  [(s "op", str_ "LEDGER_STATUS"); (s "ledgerId", VInt 1); (s "txnSeqNo", VInt 3); (s "viewNo", VNull); (s "ppSeqNo", VNull); (s "merkleRoot", root32);
   (s "protocolVersion", VInt 2)].
(** two texts: "a" is the ledger status, "b" the signed request *)
Definition parse0 (x : str) : option value :=
  if str_eqb x (s "a") then Some (VDict a_status) else if str_eqb x (s "b") then Some (VDict (a_request [(s "signature", str_ "x")])) else None.
Definition client (v : value) : fate :=
  receive_client (fun _ => true) (fun _ => None) ids parse0 (fun _ => Pass) (fun _ => false) (fun _ => Pass) false (fun _ => false) 5 v.
Definition node (v : value) : fate :=
  receive_node (fun _ => true) (fun _ => None) ids parse0 (fun _ => false) (fun _ => Pass) false 5 v.
Definition batch (l : list value) : value := VDict [(s "op", str_ "BATCH"); (s "messages", VList l); (s "signature", VNull)].
Example C79_request_posted : client (VDict (a_request [(s "signature", str_ "x")])) = GoesOn [Posted (s "REQUEST") (a_request [(s "signature", str_ "x")])].
Proof. vm_compute. reflexivity. Qed.
Example C79_unsigned_nacked : client (VDict (a_request [])) = GoesOn [Nack (Some (str_ "1111111111111111")) (VInt 7)].
Proof. vm_compute. reflexivity. Qed.
Example C79_status_posted : node (VDict a_status) = GoesOn [Posted (s "LEDGER_STATUS") a_status] /\ client (VDict a_status) = GoesOn [Posted (s "LEDGER_STATUS") a_status].
Proof. split; vm_compute; reflexivity. Qed.
Example C79_batches : node (batch [str_ "pi"; str_ "a"; str_ "?"; str_ "a"]) = GoesOn [Posted (s "LEDGER_STATUS") a_status; Posted (s "LEDGER_STATUS") a_status] /\
  client (batch [str_ "pi"; str_ "a"; str_ "b"]) = GoesOn [Posted (s "LEDGER_STATUS") a_status; Posted (s "REQUEST") (a_request [(s "signature", str_ "x")])].
Proof. split; vm_compute; reflexivity. Qed.
Example C79_propagate : node (VDict [(s "op", str_ "PROPAGATE"); (s "request", VDict (a_request [(s "signature", str_ "x")])); (s "senderClient", VNull)]) =
  GoesOn [Posted (s "PROPAGATE") [(s "op", str_ "PROPAGATE"); (s "request", VDict (a_request [(s "signature", str_ "x")])); (s "senderClient", VNull)]].
Proof. vm_compute. reflexivity. Qed.

(** ** Messages that stop a node *)
(** From a client: a list; a string; a dict with a list of signatures; an unsigned request that says it is a
    LEDGER_STATUS. *)
Theorem C79_list_refuted : client (VList [VInt 1]) = Stops [] /\ client (str_ "x") = Stops [].
Proof. split; vm_compute; reflexivity. Qed.
Theorem C79_signatures_refuted : client (VDict [(s "signatures", VList [VInt 1])]) = Stops [].
Proof. vm_compute. reflexivity. Qed.
Theorem C79_unsigned_refuted :
  client (VDict (a_request [(s "op", str_ "LEDGER_STATUS")])) = Stops [Nack (Some (str_ "1111111111111111")) (VInt 7)].
Proof. vm_compute. reflexivity. Qed.
(** From a client or a node: a number; null; a list with "op" *)
Theorem C79_number_refuted : client (VInt 5) = Stops [] /\ node (VInt 5) = Stops [] /\ node VNull = Stops [] /\ node (VList [str_ "op"]) = Stops [].
Proof. repeat split; vm_compute; reflexivity. Qed.
(** In a Batch of a client the messages after a bad one are lost, and answered only by a NACK without author. *)
Theorem C79_client_batch_refuted : client (batch [str_ "?"; str_ "b"]) = GoesOn [Nack None (VInt 1)].
Proof. vm_compute. reflexivity. Qed.
(** A blacklisted sender gets no answer. *)
Example C79_blacklisted : receive_client (fun _ => true) (fun _ => None) ids parse0 (fun _ => Pass) (fun _ => false) (fun _ => Pass) true (fun _ => false) 5 (VDict a_status) = GoesOn [Left].
Proof. vm_compute. reflexivity. Qed.
