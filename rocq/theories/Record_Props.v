(** C85: what a wallet signs is accepted, what is accepted is written, and what is written can be checked by anybody.
    Full statement: a request signed with wallets, by one or by several, is authenticated by the nodes and no changed one
    is; the transaction written says who asked for what, and from it alone anybody can check the signatures, and two
    different requests never give the same transaction. *)
From Coq Require Import List Arith Bool Lia Permutation.
From Verif Require Import Dict Record_Model Record_Spec Record_Proofs.
Import ListNotations.

(** a request signed by one is authenticated; only a request that has signatures of several already is not *)
Theorem C85_signed : forall known r i n, signatures r = None -> known i = true ->
  authenticate known (sign_request r i n) None = Some [i].
Proof.
  intros known r i n N K. apply (authenticate_intro known (sign_request r i n) [(i, sign i (payload_state (sign_request r i n) (Some i)))]); [reflexivity|discriminate|].
  intros j s [E|[]]. injection E as <- <-. split; [exact K|reflexivity].
Qed.
(** a request with an author, signed by several, in any order and by some of them again, is authenticated as signed by them *)
Theorem C85_multi_partial : forall known r a keys, identifier r = Some a -> signature r = None -> signatures r = None ->
  keys <> [] -> (forall i, In i keys -> known i = true) ->
  exists l, authenticate known (fold_left multi_sign keys r) None = Some l /\ NoDup l /\ forall i, In i l <-> In i keys.
Proof.
  intros known r a keys A B C N K. destruct keys as [|k keys]; [contradiction|].
  assert (M : multi_inv r ([k] ++ keys) (fold_left multi_sign keys (multi_sign r k))).
  { apply multi_many with (a := a); [exact A|]. split; [reflexivity|]. unfold multi_sign, add_signature. rewrite C. cbn [signatures set].
    exists [(k, sign k (payload_state r None))]. split; [reflexivity|]. split; [|cbn [map fst]; constructor; [intros []|constructor]].
    unfold sign. rewrite (payload_identified r a A). intros i s. cbn [In]. split; [intros [E|[]]; injection E as <- <-; auto|].
    intros [[<-|[]] ->]. left. reflexivity. }
  cbn [fold_left]. destruct M as (Bs & d & E & D & ND). exists (map fst d). set (r' := fold_left multi_sign keys (multi_sign r k)) in *.
  assert (Bs' := Bs). unfold op_base in Bs'. injection Bs' as _ _ _ _ _ B6 B7.
  split; [|split; [exact ND|]].
  - apply authenticate_intro.
    + unfold to_check. rewrite B7, B, E, B6, A. reflexivity.
    + intros ->. apply (D k (Sig k (to_serialize r))). split; [left|]; reflexivity.
    + intros i s I. apply D in I as [I ->]. split; [apply K; exact I|]. rewrite (to_serialize_base r' r Bs). reflexivity.
  - intros i. rewrite in_map_iff. split.
    + intros ((j, s) & <- & I). apply D in I. exact (proj1 I).
    + intros I. exists (i, Sig i (to_serialize r)). split; [reflexivity|]. apply D. split; [exact I|reflexivity].
Qed.

Definition ex_op : dict val := [(0, PStr 1); (5, PStr 7); (2, PBool true)].
Definition ex_r : request := Request (Some 3) (Some 9) ex_op None None (Some 2) (Some 6) None.
Example ex_multi : authenticate (fun _ => true) (fold_left multi_sign [4; 3; 4] ex_r) None = Some [4; 3]
  /\ validate (fold_left multi_sign [4; 3; 4] ex_r) = true /\ dicts (fold_left multi_sign [4; 3; 4] ex_r) /\ version_plain (fold_left multi_sign [4; 3; 4] ex_r).
Proof.
  split; [reflexivity|]. split; [reflexivity|]. split; [split; cbn; repeat constructor; cbn; intuition discriminate|]. cbn. discriminate.
Qed.

(** without an author they are never authenticated, whoever signs: wallets sign an identifier that the nodes leave out *)
Theorem C85_anonymous_refuted : forall known r keys, identifier r = None -> signature r = None -> signatures r = None ->
  authenticate known (fold_left multi_sign keys r) None = None.
Proof.
  intros known r keys A B C. destruct (multi_given keys r) as (H & A' & B'); [rewrite C; exact I|exact A|exact B|].
  set (r' := fold_left multi_sign keys r) in *. destruct (authenticate known r' None) as [l|] eqn:E; [exfalso|reflexivity].
  apply authenticate_inv in E as (d & T & N & _ & G). unfold to_check in T. rewrite B', A' in T.
  destruct (signatures r') as [d'|]; [|discriminate]. injection T as ->. destruct d as [|(i, s) d]; [contradiction|].
  destruct (G i s (or_introl eq_refl)) as [_ ->]. destruct H as [_ H]. specialize (H i _ (or_introl eq_refl)).
  cbn in H. rewrite A' in H. apply H. reflexivity.
Qed.
Example ex_anonymous : validate (fold_left multi_sign [4; 3] (Request None (Some 9) ex_op None None (Some 2) None None)) = true.
Proof. reflexivity. Qed.

(** what is authenticated was signed by all that are named, as it is *)
Theorem C85_authentic : forall known r l, authenticate known r None = Some l ->
  l <> [] /\ forall i, In i l -> known i = true /\
    (signature r = Some (Sig i (to_serialize r)) \/ exists d, signatures r = Some d /\ In (i, Sig i (to_serialize r)) d).
Proof.
  intros known r l A. apply authenticate_inv in A as (d & C & N & -> & G). split; [destruct d; [contradiction|discriminate]|].
  intros i I. apply in_map_iff in I as ((j, s) & <- & I). destruct (G j s I) as [K ->]. cbn [fst] in *. split; [exact K|].
  unfold to_check in C. destruct (signature r) as [s|] eqn:Sg.
  - destruct (identifier r) as [a|].
    + injection C as <-. destruct I as [I|[]]. injection I as -> ->. left. reflexivity.
    + right. exists d. split; [exact C|exact I].
  - destruct (signatures r) as [d'|]; [|discriminate]. right. exists d. split; [destruct (identifier r); exact C|exact I].
Qed.
(** with the same signatures, no changed request is authenticated *)
Theorem C85_unchanged : forall known known' r r' l l', validate r = true -> validate r' = true -> dicts r -> dicts r' ->
  authenticate known r None = Some l -> authenticate known' r' None = Some l' ->
  signature r = signature r' -> signatures r = signatures r' ->
  identifier r = identifier r' /\ req_id r = req_id r' /\ same_dict (operation r) (operation r') /\
  protocol r = protocol r' /\ taa r = taa r' /\ endorser r = endorser r'.
Proof.
  intros known known' r r' l l' V V' [D _] [D' _] A A' E1 E2. apply to_serialize_inv; [exact D|exact D'|].
  apply authenticate_inv in A as (d & C & N & _ & G). apply authenticate_inv in A' as (d' & C' & N' & _ & G').
  destruct (validate_inv r V) as (_ & _ & T & I). destruct (validate_inv r' V') as (_ & _ & T' & I').
  unfold to_check in C, C'. rewrite <- E1 in C', T', I'. rewrite <- E2 in C', T'. destruct (signature r) as [s|].
  - destruct (identifier r) as [a|]; [|specialize (I eq_refl); discriminate]. destruct (identifier r') as [a'|]; [|specialize (I' eq_refl); discriminate].
    injection C as <-. injection C' as <-. destruct (G a s (or_introl eq_refl)) as [_ G1]. destruct (G' a' s (or_introl eq_refl)) as [_ G2]. congruence.
  - destruct (signatures r) as [x|]; [|discriminate].
    assert (d = x) by (destruct (identifier r); congruence). assert (d' = x) by (destruct (identifier r'); congruence). subst d d'.
    destruct x as [|(i, s) x]; [contradiction|]. destruct (G i s (or_introl eq_refl)) as [_ G1]. destruct (G' i s (or_introl eq_refl)) as [_ G2]. congruence.
Qed.

(** what is written of a request *)
Theorem C85_recorded : forall r, let t := req_to_txn (new_obj r) in
  get_type t = match get 0 (operation r) with Some v => v | None => PNone end /\
  (forall k, get k (get_payload_data t) = if (k =? 0) || (k =? 1) then None else get k (operation r)) /\
  get_from t = identifier r /\ get_req_id t = req_id r /\ get_endorser t = endorser r /\ t_taa t = taa r /\
  (protocol r <> Some 0 -> get_protocol_version t = protocol r) /\
  get_digest t = Some (full_state r) /\ t_payload_digest t = Some (payload_state r None) /\
  is_forced t = req_is_forced r.
Proof.
  intros r. cbn zeta. destruct (req_to_txn_fields (new_obj r)) as (E1 & E2 & E3 & E4 & E5 & E6 & E7 & E8 & E9). cbn [o_req new_obj] in *.
  assert (G : forall k, get k (t_data (req_to_txn (new_obj r))) = if (k =? 0) || (k =? 1) then None else get k (operation r)).
  { intros k. rewrite E4, !get_del. destruct (k =? 0), (k =? 1); reflexivity. }
  split; [exact E1|]. split; [exact G|]. split; [exact E5|]. split; [exact E6|]. split; [exact E8|]. split; [exact E7|].
  split; [|split; [reflexivity|split; [reflexivity|]]].
  - intros P. unfold get_protocol_version. rewrite E2. destruct (protocol r) as [[|p]|]; [contradiction|reflexivity..].
  - unfold is_forced, req_is_forced, pop. rewrite G. cbn. destruct (get 2 (operation r)) as [[]|]; reflexivity.
Qed.

(** anybody can check from the ledger alone what the nodes checked, and finds the same signers *)
Theorem C85_audit_partial : forall known r l, validate r = true -> dicts r -> version_plain r ->
  authenticate known r None = Some l -> let t := req_to_txn (new_obj r) in
  exists l', audit t = Some l' /\ Permutation l l' /\ same_dict (operation_of t) (operation r) /\
    t_payload_digest t = Some (Msg (Some (match get_from t with Some i => Some [i] | None => Some l' end)) (m_req_id (message_of t))
      (m_op (message_of t)) (m_protocol (message_of t)) (m_taa (message_of t)) (m_endorser (message_of t))).
Proof.
  intros known r l V D VP A. cbn zeta. destruct (audit_ok known r l V D VP A) as (l' & E & P). exists l'. split; [exact E|]. split; [exact P|].
  destruct (validate_inv r V) as (T & _ & TS & SI). split; [apply operation_back; [apply D|exact T|exact VP]|].
  rewrite (message_back r V D VP). change (t_payload_digest (req_to_txn (new_obj r))) with (Some (payload_state r None)).
  destruct (req_to_txn_fields (new_obj r)) as (_ & _ & _ & _ & E5 & _). cbn [o_req new_obj] in E5. unfold get_from. rewrite E5.
  unfold payload_state, to_serialize, author. cbn [m_req_id m_op m_protocol m_taa m_endorser]. destruct (identifier r) as [i|] eqn:Id; [reflexivity|].
  apply authenticate_inv in A as (d & C & N & _ & _). unfold to_check in C. rewrite (SI eq_refl), Id in C.
  unfold audit in E. rewrite (sigs_checked r V d) in E by (unfold to_check; rewrite (SI eq_refl), Id; exact C).
  destruct (signatures r) as [x|]; [|discriminate]. injection C as ->. unfold gen_idr. destruct d as [|y d]; [contradiction|].
  destruct (sort (y :: d)) as [|z q] eqn:Sd; [apply sort_nil in Sd; discriminate|]. cbn [map] in E.
  destruct (forallb _ _) in E; [|discriminate]. injection E as <-. cbn [flat_map fst]. rewrite flat_some. reflexivity.
Qed.
(** what can be checked was signed: no other request could have been written so *)
Theorem C85_audit_sound_partial : forall r l, validate r = true -> dicts r -> version_plain r ->
  audit (req_to_txn (new_obj r)) = Some l -> exists l', authenticate (fun _ => true) r None = Some l' /\ Permutation l' l.
Proof. exact audit_back. Qed.
(** two requests written alike ask for the same, of the same *)
Theorem C85_unique_partial : forall r r', validate r = true -> validate r' = true -> dicts r -> dicts r' -> version_plain r -> version_plain r' ->
  same_but_digests (req_to_txn (new_obj r)) (req_to_txn (new_obj r')) ->
  identifier r = identifier r' /\ req_id r = req_id r' /\ same_dict (operation r) (operation r') /\
  protocol r = protocol r' /\ taa r = taa r' /\ endorser r = endorser r'.
Proof.
  intros r r' V V' [D _] [D' _] P P' (E1 & E2 & E3 & E4 & E5 & E6 & E7 & E8 & E9).
  destruct (validate_inv r V) as (T & Pr & _). destruct (validate_inv r' V') as (T' & Pr' & _).
  destruct (operation_back r D T P) as [O _]. destruct (operation_back r' D' T' P') as [O' _].
  destruct (req_to_txn_fields (new_obj r)) as (_ & _ & _ & _ & F5 & F6 & F7 & F8 & _).
  destruct (req_to_txn_fields (new_obj r')) as (_ & _ & _ & _ & F5' & F6' & F7' & F8' & _). cbn [o_req new_obj] in *.
  split; [congruence|]. split; [congruence|]. split; [|split; [congruence|split; congruence]].
  intros k. rewrite <- (O k), <- (O' k). unfold operation_of, get_type, get_payload_txn_version, get_payload_data. rewrite E1, E3.
  cbn [get]. destruct (k =? 0); [reflexivity|]. destruct (t_version (req_to_txn (new_obj r'))) as [v|]; cbn [app get]; [destruct (k =? 1); [reflexivity|]|]; apply E4.
Qed.
Example ex_audit : let t := req_to_txn (new_obj (fold_left multi_sign [4; 3; 4] ex_r)) in
  audit t = Some [3; 4] /\ get_from t = Some 3 /\ is_forced t = true.
Proof. repeat split. Qed.

(** an agreement of the authors asked for without a version is written like one asked for with version 2, though what was
    signed differs: from the ledger its signature looks false *)
Theorem C85_version_refuted : exists r r', validate r = true /\ validate r' = true /\ dicts r /\ dicts r' /\
  authenticate (fun _ => true) r None = Some [3] /\ authenticate (fun _ => true) r' None = Some [3] /\
  get 1 (operation r) = None /\ get 1 (operation r') = Some (PStr 2) /\
  t_version (req_to_txn (new_obj r)) = t_version (req_to_txn (new_obj r')) /\
  audit (req_to_txn (new_obj r)) = None /\ audit (req_to_txn (new_obj r')) = Some [3].
Proof.
  exists (sign_request (Request None None [(0, T_TAA); (5, PStr 7)] None None (Some 2) None None) 3 9),
         (sign_request (Request None None [(0, T_TAA); (1, PStr 2); (5, PStr 7)] None None (Some 2) None None) 3 9).
  repeat split; try reflexivity; cbn; repeat constructor; cbn; intuition discriminate.
Qed.
(** so is a version given as null, for any type *)
Theorem C85_null_version_refuted : exists r, validate r = true /\ dicts r /\ authenticate (fun _ => true) r None = Some [3] /\
  get 0 (operation r) <> Some T_TAA /\ get 1 (operation r) = Some PNone /\ audit (req_to_txn (new_obj r)) = None.
Proof.
  exists (sign_request (Request None None [(0, PStr 1); (1, PNone); (5, PStr 7)] None None (Some 2) None None) 3 9).
  repeat split; try reflexivity; cbn; repeat constructor; cbn; intuition discriminate.
Qed.
(** the ledger does not tell whether one signature was given alone or in a map, but the digest of the request depends on it *)
Theorem C85_form_refuted : exists r r', validate r = true /\ validate r' = true /\ dicts r /\ dicts r' /\
  authenticate (fun _ => true) r None = Some [3] /\ authenticate (fun _ => true) r' None = Some [3] /\
  same_but_digests (req_to_txn (new_obj r)) (req_to_txn (new_obj r')) /\
  t_payload_digest (req_to_txn (new_obj r)) = t_payload_digest (req_to_txn (new_obj r')) /\
  get_digest (req_to_txn (new_obj r)) <> get_digest (req_to_txn (new_obj r')).
Proof.
  exists (sign_request ex_r 3 9), (multi_sign ex_r 3).
  repeat split; try reflexivity; try (cbn; repeat constructor; cbn; intuition discriminate).
Qed.

(** the digests of a request are those it had when they were first read, however it is signed afterwards *)
Theorem C85_first_read : forall r us us', ~ In UDigest us ->
  snd (read_digest (uses (new_obj r) (us ++ UDigest :: us'))) = full_state (o_req (uses (new_obj r) us)).
Proof.
  intros r us us' N. unfold uses. rewrite fold_left_app. cbn [fold_left]. fold (uses (new_obj r) us). set (o := uses (new_obj r) us).
  assert (U : o_digest o = None) by (apply uses_uncached; [reflexivity|exact N]).
  fold (uses (use_step o UDigest) us').
  assert (C : o_digest (uses (use_step o UDigest) us') = Some (full_state (o_req o))).
  { apply uses_cached. unfold use_step, read_digest. rewrite U. reflexivity. }
  unfold read_digest. rewrite C. reflexivity.
Qed.
Theorem C85_first_read_payload : forall r us us', ~ In UPayload us ->
  snd (read_payload_digest (uses (new_obj r) (us ++ UPayload :: us'))) = payload_state (o_req (uses (new_obj r) us)) None.
Proof.
  intros r us us' N. unfold uses. rewrite fold_left_app. cbn [fold_left]. fold (uses (new_obj r) us). set (o := uses (new_obj r) us).
  assert (U : o_payload o = None) by (apply uses_uncached_payload; [reflexivity|exact N]).
  fold (uses (use_step o UPayload) us').
  assert (C : o_payload (uses (use_step o UPayload) us') = Some (payload_state (o_req o) None)).
  { apply uses_cached_payload. unfold use_step, read_payload_digest. rewrite U. reflexivity. }
  unfold read_payload_digest. rewrite C. reflexivity.
Qed.
(** so reading one before signing gives another digest than the nodes will compute of the same request *)
Theorem C85_stale_refuted : exists r us, let o := uses (new_obj r) us in
  authenticate (fun _ => true) (o_req o) None = Some [3] /\ snd (read_digest o) <> full_state (o_req o) /\
  snd (read_payload_digest o) <> payload_state (o_req o) None.
Proof. exists ex_r, [UDigest; UPayload; USign 3 10]. cbn zeta. split; [reflexivity|]. split; cbn; discriminate. Qed.
Example ex_first_read : ~ In UDigest [UMulti 3; UPayload].
Proof. intros [H|[H|[]]]; discriminate. Qed.

Print Assumptions C85_signed.
Print Assumptions C85_multi_partial.
Print Assumptions C85_anonymous_refuted.
Print Assumptions C85_authentic.
Print Assumptions C85_unchanged.
Print Assumptions C85_recorded.
Print Assumptions C85_audit_partial.
Print Assumptions C85_audit_sound_partial.
Print Assumptions C85_unique_partial.
Print Assumptions C85_version_refuted.
Print Assumptions C85_null_version_refuted.
Print Assumptions C85_form_refuted.
Print Assumptions C85_first_read.
Print Assumptions C85_first_read_payload.
Print Assumptions C85_stale_refuted.
