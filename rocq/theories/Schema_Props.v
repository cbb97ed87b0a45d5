(** C78: a message that is accepted is well formed. *)
From Coq Require Import Ascii String List Arith Bool ZArith Lia.
From Verif Require Import Schema_Model Schema_Spec Schema_Proofs.
Import ListNotations.
Local Open Scope Z_scope.

Section C78.
  (** ipaddress.ip_address, int of a string, the ledgers of the node *)
  Variable ip_ok : str -> bool.
  Variable to_int : str -> option Z.
  Variable ledger_ids : list Z.
  Notation validate := (validate ip_ok to_int ledger_ids).
  Notation make := (make ip_ok to_int ledger_ids).
  Notation well_formed := (well_formed ip_ok to_int ledger_ids).
  Notation well_made := (well_made ip_ok to_int ledger_ids).
  Notation wf := (wf ip_ok to_int ledger_ids).

  (** A message of any class is accepted if and only if all its required fields are there, every field holds what it may
      hold, and what the class requires besides holds. *)
  Theorem C78_accepted n c d : In (n, c) classes ->
    make c d = Good <-> well_made (fst c) d /\ wf_post ip_ok to_int ledger_ids (snd c) d.
  Proof. exact (make_good ip_ok to_int ledger_ids n c d). Qed.
  (** The same for the request of a client, in a Propagate or by itself *)
  Theorem C78_request v :
    validate (req request) v = Good <-> exists d, v = VDict d /\ well_formed request_fields d /\ wf_extra ERequest d.
  Proof. exact (request_good ip_ok to_int ledger_ids v). Qed.
  Theorem C78_client_request d : make_request ip_ok to_int ledger_ids d = Good <-> well_made request_fields d /\ wf_extra ERequest d.
  Proof. exact (make_request_good ip_ok to_int ledger_ids d). Qed.
  (** No message with a required field missing, or with a null where none may be, is accepted. *)
  Theorem C78_required n c d m f : In (n, c) classes -> In (m, f) (fst c) -> is_optional f = false -> make c d = Good -> find m d <> None.
  Proof. intros I J O M. apply (C78_accepted n c d I) in M. destruct M as [[_ W] _]. destruct (W m f J) as [R _]. exact (R O). Qed.

  Lemma field_of n c d m f : In (n, c) classes -> make c d = Good -> find m (fst c) = Some f -> is_optional f = false ->
    exists x, find m d = Some x /\ wf f x.
  Proof.
    intros I M F O. apply (C78_accepted n c d I) in M. destruct M as [[_ W] _]. apply find_in in F. destruct (W m f F) as [R V].
    destruct (find m d) as [x|] eqn:E; [|exfalso; exact (R O eq_refl)]. exists x. split; [reflexivity|]. apply V. apply find_in. exact E.
  Qed.
  Lemma class_in n c : find n classes = Some c -> In (n, c) classes.
  Proof. apply find_in. Qed.

  (** The numbers of a PrePrepare, a Prepare, a Commit are natural numbers. *)
  Theorem C78_three_phase n c d k : In n [s "PREPREPARE"; s "PREPARE"; s "COMMIT"] -> find n classes = Some c -> make c d = Good ->
    In k [s "instId"; s "viewNo"; s "ppSeqNo"] -> exists v, find k d = Some v /\ nonneg v.
  Proof.
    intros N C M K. pose proof (class_in n c C) as I.
    assert (find k (fst c) = Some (req KNonNeg)) as F.
    { destruct N as [<-|[<-|[<-|[]]]]; injection C as <-; destruct K as [<-|[<-|[<-|[]]]]; reflexivity. }
    destruct (field_of n c d k _ I M F eq_refl) as (x & E & [[A _]|W]); [discriminate A|]. exists x. auto.
  Qed.
  (** The ledger named in a PrePrepare or in a message of the catch-up is one the node has. *)
  Theorem C78_ledger n c d :
    In n [s "PREPREPARE"; s "LEDGER_STATUS"; s "CONSISTENCY_PROOF"; s "CATCHUP_REQ"; s "CATCHUP_REP"; s "ORDERED"] ->
    find n classes = Some c -> make c d = Good -> exists v l, find (s "ledgerId") d = Some v /\ is_int v l /\ In l ledger_ids.
  Proof.
    intros N C M. pose proof (class_in n c C) as I.
    assert (find (s "ledgerId") (fst c) = Some (req KLedgerId)) as F.
    { destruct N as [<-|[<-|[<-|[<-|[<-|[<-|[]]]]]]]; injection C as <-; reflexivity. }
    destruct (field_of n c d _ _ I M F eq_refl) as (x & E & [[A _]|(l & W & L)]); [discriminate A|]. exists x, l. auto.
  Qed.
  (** An accepted request has a number, the present protocol version, an operation with a type, and an author or
      signatures; every signature is given for an identifier of 16 or 32 bytes. *)
  Theorem C78_request_parts v : validate (req request) v = Good ->
    exists d r p o t, v = VDict d /\ find (s "reqId") d = Some r /\ nonneg r /\ find (s "protocolVersion") d = Some p /\ is_int p 2 /\
      find (s "operation") d = Some (VDict o) /\ present "type" o t /\ (non_empty "identifier" d \/ non_empty "signatures" d) /\
      forall m x y, find (s "signatures") d = Some (VDict m) -> In (x, y) m -> base58_of (Some [16; 32]) x.
  Proof.
    intros V. apply C78_request in V. destruct V as (d & -> & W & (_ & _ & _ & A)).
    assert (forall k f, find k request_fields = Some f -> is_optional f = false -> exists x, find k d = Some x /\ wf f x) as G.
    { intros k f F O. apply find_in in F. destruct (W k f F) as [R T]. destruct (find k d) as [x|] eqn:E; [|exfalso; exact (R O eq_refl)].
      exists x. split; [reflexivity|]. apply T. apply find_in. exact E. }
    destruct (G (s "reqId") _ eq_refl eq_refl) as (r & Er & [[X _]|Wr]); [discriminate X|].
    destruct (G (s "protocolVersion") _ eq_refl eq_refl) as (p & Ep & [[X _]|Wp]); [discriminate X|].
    destruct (G (s "operation") _ eq_refl eq_refl) as (o & Eo & Wo).
    assert (exists o' t, o = VDict o' /\ present "type" o' t) as (o' & t & -> & T).
    { unfold req in Wo. cbn [Schema_Spec.wf Schema_Spec.wf_kind] in Wo. destruct Wo as (o' & t & E & T & _). exists o', t. auto. }
    exists d, r, p, o', t. split; [reflexivity|]. split; [exact Er|]. split; [exact Wr|]. split; [exact Ep|]. split; [exact Wp|]. split; [exact Eo|]. split; [exact T|]. split; [exact A|].
    intros m x y F I. apply find_in in F.
    assert (In (s "signatures", optnul (KMap (req identifier) (req (KSignature 512)))) request_fields) as J.
    { apply find_in. reflexivity. }
    destruct (W _ _ J) as [_ T']. specialize (T' _ F). destruct T' as [[_ X]|(m' & E & H)]; [discriminate X|]. injection E as <-.
    destruct (H x y I) as [[[X _]|(x' & E & B)] _]; [discriminate X|]. injection E as <-. exact B.
  Qed.

  (** A ViewChange of which all checkpoints are dicts holds all of them, as Checkpoints, in their order, and its
      digest can be computed.  Missing: other values are accepted as checkpoints (see the refutations). *)
  Theorem C78_view_change_partial c d l : find (s "VIEW_CHANGE") classes = Some c -> make c d = Good ->
    find (s "checkpoints") d = Some (VList l) -> (forall x, In x l -> exists m, x = VDict m) ->
    (forall m, In (VDict m) l -> well_made checkpoint m) /\ view_change_asdict l = Good /\
    exists ms, l = map VDict ms /\ view_change_checkpoints l = map Obj ms.
  Proof.
    intros C M F A. pose proof (class_in _ c C) as I. apply (C78_accepted _ c d I) in M. destruct M as [_ P].
    injection C as <-. cbn [snd] in P.
    assert (exists ms, l = map VDict ms /\ dicts l = map Obj ms) as (ms & E & D).
    { clear -A. induction l as [|x l IH]; [exists []; auto|]. destruct (A x (or_introl eq_refl)) as [m ->].
      destruct IH as (ms & -> & E); [intros y I; apply A; right; exact I|]. exists (m :: ms). split; [reflexivity|]. cbn [dicts flat_map app map]. f_equal. exact E. }
    assert (view_change_checkpoints l = map Obj ms) as V.
    { unfold view_change_checkpoints. rewrite D. destruct ms; [subst l; reflexivity|reflexivity]. }
    split; [intros m J; exact (P l m F J)|]. split; [|exists ms; auto].
    unfold view_change_asdict. rewrite V. apply each_good. intros x J. apply in_map_iff in J. destruct J as (m & <- & _). reflexivity.
  Qed.
  (** When the digest of a ViewChange cannot be computed: there are checkpoints, and none is a dict *)
  Theorem C78_digest_fails l : view_change_asdict l <> Good <-> l <> [] /\ forall m, ~ In (VDict m) l.
  Proof.
    assert (dicts l = [] <-> forall m, ~ In (VDict m) l) as K.
    { induction l as [|x l IH]; [split; [intros _ m []|reflexivity]|]. destruct x; cbn [dicts flat_map app];
        try (fold (dicts l); rewrite IH; split; [intros H m [E|J]; [discriminate E|exact (H m J)]|intros H m J; exact (H m (or_intror J))]).
      split; [discriminate|]. intros H. exfalso. exact (H d (or_introl eq_refl)). }
    unfold view_change_asdict, view_change_checkpoints. destruct (dicts l) as [|o os] eqn:D.
    - rewrite each_good. split.
      + intros H. split; [intros ->; apply H; intros x []|apply K; reflexivity].
      + intros [N H] G. destruct l as [|x l]; [contradiction|]. specialize (G (Raw x) (or_introl eq_refl)).
        destruct x; try discriminate G. exact (H d (or_introl eq_refl)).
    - split.
      + intros H. exfalso. apply H. apply each_good. rewrite <- D. clear. induction l as [|x l IH]; intros y I; [destruct I|].
        destruct x; cbn [dicts flat_map app] in I; try exact (IH y I). destruct I as [<-|I]; [reflexivity|exact (IH y I)].
      + intros [_ H]. apply K in H. discriminate H.
  Qed.
End C78.
Print Assumptions C78_accepted.
Print Assumptions C78_request.
Print Assumptions C78_client_request.
Print Assumptions C78_required.
Print Assumptions C78_three_phase.
Print Assumptions C78_ledger.
Print Assumptions C78_request_parts.
Print Assumptions C78_view_change_partial.
Print Assumptions C78_digest_fails.

(** ** Examples *)
Definition ids : list Z := [0; 1; 2; 3].
Definition mk (n : string) (d : dict) : res :=
  match find (s n) classes with Some c => make (fun _ => true) (fun _ => None) ids c d | None => Bad end.
Definition str_ (x : string) : value := VStr (s x).
Definition root32 : value := str_ "11111111111111111111111111111111".
Definition root44 : value := str_ "4uQeVj5tqViQh7yWWGStvkEG1Zmhx6uasJtWCJziofM".   (* 32 bytes *)
Definition prepare (view dg : value) : dict :=
  [(s "op", str_ "PREPARE"); (s "instId", VInt 0); (s "viewNo", view); (s "ppSeqNo", VInt 3); (s "ppTime", VInt 1600000000); (s "digest", str_ "abc");
   (s "stateRootHash", dg); (s "txnRootHash", VNull)].
Example C78_prepare_ok : mk "PREPARE" (prepare (VInt 1) root32) = Good. Proof. vm_compute. reflexivity. Qed.
Example C78_prepare_ok2 : mk "PREPARE" (prepare (VInt 1) root44) = Good. Proof. vm_compute. reflexivity. Qed.
Example C78_prepare_short : mk "PREPARE" (prepare (VInt 1) (str_ "111")) = Raise TypeError. Proof. vm_compute. reflexivity. Qed.
Example C78_prepare_negative : mk "PREPARE" (prepare (VInt (-1)) root32) = Raise TypeError. Proof. vm_compute. reflexivity. Qed.
Example C78_prepare_missing : mk "PREPARE" (tl (prepare (VInt 1) root32)) = Good /\ mk "PREPARE" (tl (tl (prepare (VInt 1) root32))) = Raise TypeError.
Proof. split; vm_compute; reflexivity. Qed.
Definition a_request : dict :=
  [(s "identifier", str_ "1111111111111111"); (s "reqId", VInt 1); (s "protocolVersion", VInt 2); (s "signature", str_ "sig");
   (s "operation", VDict [(s "type", str_ "1"); (s "dest", str_ "1111111111111111"); (s "verkey", str_ "~1111111111111111")])].
Example C78_request_ok : validate (fun _ => true) (fun _ => None) ids (req request) (VDict a_request) = Good.
Proof. vm_compute. reflexivity. Qed.
Definition a_checkpoint : dict :=
  [(s "instId", VInt 0); (s "viewNo", VInt 0); (s "seqNoStart", VInt 0); (s "seqNoEnd", VInt 0); (s "digest", VNull)].
Definition view_change (prepared chk : list value) : dict :=
  [(s "viewNo", VInt 1); (s "stableCheckpoint", VInt 0); (s "prepared", VList prepared); (s "preprepared", VList []); (s "checkpoints", VList chk)].
Definition a_batch : value := VDict [(s "view_no", VInt 0); (s "pp_view_no", VInt 0); (s "pp_seq_no", VInt 1); (s "pp_digest", str_ "d")].
Example C78_view_change_ok : mk "VIEW_CHANGE" (view_change [a_batch] [VDict a_checkpoint]) = Good /\
  mk "VIEW_CHANGE" (view_change [a_batch] [VDict (tl a_checkpoint)]) = Raise TypeError.
Proof. split; vm_compute; reflexivity. Qed.

(** ** What is accepted and should not be *)
(** A bool is accepted where a number is due. *)
Theorem C78_bool_refuted : mk "PREPARE" (prepare (VBool true) root32) = Good.
Proof. vm_compute. reflexivity. Qed.
(** A SHA-256 digest with a newline at its end is accepted in the acceptance of the agreement. *)
Theorem C78_newline_refuted : exists x, length x = 65%nat /\
  validate (fun _ => true) (fun _ => None) ids (req taa_acceptance)
    (VDict [(s "taaDigest", VStr x); (s "mechanism", str_ "m"); (s "time", VInt 1600000000)]) = Good.
Proof. exists (repeat 48%nat 64 ++ [10%nat]). split; vm_compute; reflexivity. Qed.
(** A ViewChange with something else than dicts as checkpoints is accepted, and then its digest cannot be computed: the
    error is raised while the message is processed. *)
Theorem C78_view_change_refuted : mk "VIEW_CHANGE" (view_change [] [VInt 5]) = Good /\ view_change_asdict [VInt 5] = Raise AttributeError.
Proof. split; vm_compute; reflexivity. Qed.
(** Among dicts other values are accepted and left out. *)
Theorem C78_view_change_mixed_refuted : exists l, mk "VIEW_CHANGE" (view_change [] l) = Good /\ view_change_checkpoints l = [Obj a_checkpoint] /\ length l = 2%nat.
Proof. exists [VInt 5; VDict a_checkpoint]. repeat split; vm_compute; reflexivity. Qed.
Theorem C78_batches_mixed_refuted : exists l, mk "VIEW_CHANGE" (view_change l []) = Good /\ length (batch_ids l) = 1%nat /\ length l = 2%nat.
Proof. exists [a_batch; VList [VInt 0; VInt 0; VInt 2; str_ "d"]]. repeat split; vm_compute; reflexivity. Qed.
(** A NewView with something else than a dict as its checkpoint is accepted. *)
Theorem C78_new_view_refuted : mk "NEW_VIEW"
    [(s "viewNo", VInt 1); (s "viewChanges", VList []); (s "checkpoint", VInt 5); (s "batches", VList [])] = Good /\
  new_view_checkpoint (VInt 5) = Raw (VInt 5).
Proof. split; vm_compute; reflexivity. Qed.
