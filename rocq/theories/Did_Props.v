(** C99: identities and keys are named by text in one way, and a node finds the key a signer has. *)
From Coq Require Import Ascii String List NArith Bool Lia Arith.
Import ListNotations.
From Verif Require Import Did_Model Did_Spec Did_Proofs.
Local Open Scope N_scope.

(** Bytes written in base58 and read again are the same bytes, of any length and with any leading
    zeros. *)
Theorem C99_decode : forall b, is_bytes b -> b58decode (b58encode b) = Some b.
Proof. exact decode_encode. Qed.

(** A text that is read is the one these bytes are written as: no two texts name the same bytes. *)
Theorem C99_encode : forall s b, b58decode s = Some b -> is_bytes b /\ b58encode b = s.
Proof. intros s b H. apply encode_decode in H as [A B]. now split. Qed.
Theorem C99_one_name : forall s1 s2 b, b58decode s1 = Some b -> b58decode s2 = Some b -> s1 = s2.
Proof. intros s1 s2 b H1 H2. apply encode_decode in H1 as [<- _], H2 as [<- _]. reflexivity. Qed.
(** Exactly the texts over the alphabet are read. *)
Theorem C99_reads : forall s, (exists b, b58decode s = Some b) <-> base58_only s.
Proof. exact decode_some. Qed.

(** A signer without a name of its own: from the identifier and the verkey it publishes a node gets
    exactly the signer's key, and so does the owner. *)
Theorem C99_signer : forall k, is_key k -> exists x v, signer None k = Some x /\ verkey x = Some v /\
  verifier (Some v) (Some (identifier x)) = Some (b58encode k, Some k) /\ full_verkey x = Some (Some (b58encode k)).
Proof.
  intros k [KB KL]. unfold signer, make_identity. rewrite (given_ne k) by (now apply key_ne). cbn [given].
  set (i := firstn 16 k). set (a := skipn 16 k). assert (E : i ++ a = k) by (apply firstn_skipn).
  assert (IB : is_bytes i /\ is_bytes a). { rewrite <- E in KB. now apply Forall_app in KB. }
  destruct IB as [IB AB].
  assert (LI : List.length i = 16%nat) by (unfold i; rewrite firstn_length; lia).
  assert (LA : List.length a = 16%nat) by (unfold a; rewrite skipn_length; lia).
  eexists; eexists. split; [reflexivity|]. unfold verkey, full_verkey. cbn [identifier i_verkey abbreviated]. split; [reflexivity|]. split.
  - rewrite (verifier_abbr i a); rewrite ?E; auto; intros Z; rewrite Z in *; discriminate.
  - unfold verkey. cbn [i_verkey abbreviated tl]. now rewrite (decode_encode i IB), (decode_encode a AB), E.
Qed.

(** A signer with a name of its own, provided the name is base58: likewise. *)
Theorem C99_named : forall i k, i <> [] -> base58_only i -> is_key k -> exists x v, signer (Some i) k = Some x /\
  identifier x = i /\ verkey x = Some v /\
  verifier (Some v) (Some i) = Some (b58encode k, Some k) /\ full_verkey x = Some (Some (b58encode k)).
Proof.
  intros i k NI BI K. unfold signer, make_identity. rewrite (given_ne i NI), (given_ne k) by (apply key_ne; apply K). cbn [given].
  eexists; eexists. split; [reflexivity|]. split; [reflexivity|]. split; [reflexivity|]. split; [|reflexivity].
  now apply verifier_full.
Qed.
(** A name that is not base58 is no use: there is a signer, but no node takes any of its keys. *)
Theorem C99_bad_name : forall i k, i <> [] -> ~ base58_only i -> is_key k ->
  (exists x, signer (Some i) k = Some x) /\ forall v, verifier v (Some i) = None.
Proof.
  intros i k NI BI K. split.
  - unfold signer, make_identity. rewrite (given_ne i NI), (given_ne k) by (apply key_ne; apply K). eexists. reflexivity.
  - intros v. unfold verifier. rewrite (given_ne i NI). destruct (b58decode i) as [b|] eqn:E; [|reflexivity].
    exfalso. apply BI. apply decode_some. now exists b.
Qed.

(** Different keys are published differently. *)
Theorem C99_distinct : forall k1 k2 x, is_key k1 -> is_key k2 -> signer None k1 = Some x -> signer None k2 = Some x -> k1 = k2.
Proof.
  intros k1 k2 x K1 K2 H1 H2. destruct (C99_signer k1 K1) as (x1 & v1 & A1 & B1 & C1 & _), (C99_signer k2 K2) as (x2 & v2 & A2 & B2 & C2 & _).
  assert (x1 = x) by congruence. assert (x2 = x) by congruence. subst. assert (v1 = v2) by congruence. subst. congruence.
Qed.

(** An identifier which is a key itself needs no verkey. *)
Theorem C99_cryptonym : forall k v, is_key k -> v = None \/ v = Some [] ->
  verifier v (Some (b58encode k)) = Some (b58encode k, Some k).
Proof.
  intros k v [KB KL] V. unfold verifier. destruct (encode_nonempty k KB (key_ne k KL)) as (c & r & E).
  pose proof (decode_encode k KB) as D. pose proof (not_tilde _ _ D) as T. rewrite E in *.
  destruct V as [-> | ->]; cbn [given]; rewrite D, KL; cbn [Nat.eqb given]; rewrite T, D, (nacl_32 k KL); reflexivity.
Qed.

(** What a node takes as the key: of a full verkey of 32 bytes these bytes; of an abbreviated one of
    16 bytes the identifier's 16 bytes and then these.  With an identifier of 32 bytes an abbreviated
    verkey is refused. *)
Theorem C99_key : forall idr r v res, is_bytes r -> v = b58encode r -> List.length r = 32%nat ->
  verifier (Some v) idr = Some res -> res = (v, Some r).
Proof.
  intros idr r v res RB -> RL. pose proof (decode_encode r RB) as D. pose proof (not_tilde _ _ D) as T.
  destruct (encode_nonempty r RB (key_ne r RL)) as (c & s & E).
  unfold verifier. destruct (given idr) as [i|].
  - destruct (b58decode i) as [raw|]; [|discriminate]. rewrite (given_ne (b58encode r)) by (rewrite E; discriminate).
    rewrite (given_ne (b58encode r)) by (rewrite E; discriminate). rewrite T, D, (nacl_32 r RL). congruence.
  - rewrite D, (nacl_32 r RL). congruence.
Qed.
Theorem C99_abbreviated : forall i a, is_bytes i -> is_bytes a -> List.length a = 16%nat ->
  (List.length i = 16%nat -> verifier (Some (tilde :: b58encode a)) (Some (b58encode i)) = Some (b58encode (i ++ a), Some (i ++ a))) /\
  (List.length i = 32%nat -> verifier (Some (tilde :: b58encode a)) (Some (b58encode i)) = None).
Proof.
  intros i a IB AB LA. split; intros LI.
  - apply verifier_abbr; auto; try (intros ->; discriminate). rewrite app_length. lia.
  - unfold verifier. destruct (encode_nonempty i IB (key_ne i LI)) as (c & r & E).
    rewrite (given_ne (b58encode i)) by (rewrite E; discriminate). rewrite (decode_encode i IB). cbn [given tl]. rewrite N.eqb_refl.
    rewrite (decode_encode a AB), (decode_encode (i ++ a)) by (now apply Forall_app).
    assert (L : List.length (i ++ a) = 48%nat) by (rewrite app_length; lia).
    unfold nacl_verifier. rewrite L. cbn [Nat.eqb]. destruct (i ++ a) as [|y t] eqn:Q; [discriminate|].
    destruct (unhex (y :: t)) as [k|] eqn:U; [|reflexivity]. apply unhex_length in U. rewrite L in U.
    destruct (Nat.eqb_spec (List.length k) 32); [lia|reflexivity].
Qed.

(** The owner's full verkey is the one a node keeps, whenever both exist and there is a verkey. *)
Theorem C99_agree_partial : forall i v x w k, v <> [] -> make_identity (Some i) (Some v) None = Some x ->
  verifier (Some v) (Some i) = Some (w, k) -> i <> [] -> full_verkey x = Some (Some w).
Proof.
  intros i v x w k NV H V NI. unfold make_identity in H. unfold verifier in V.
  rewrite (given_ne i NI) in *. rewrite (given_ne v NV) in *. cbn [given] in H.
  destruct (b58decode i) as [raw|] eqn:DI; [|discriminate]. rewrite (given_ne v NV) in V.
  destruct (match v with [] => false | c :: _ => c =? tilde end) eqn:T.
  - injection H as <-. unfold full_verkey, verkey. cbn [abbreviated identifier i_verkey tl]. rewrite DI.
    destruct (b58decode (tl v)) as [a|]; [|discriminate].
    destruct (b58decode (b58encode (raw ++ a))) as [key|]; [|discriminate]. destruct (nacl_verifier key); [|discriminate].
    now injection V as <- _.
  - injection H as <-. unfold full_verkey, verkey. cbn [abbreviated i_verkey].
    destruct (b58decode v) as [key|]; [|discriminate]. destruct (nacl_verifier key); [|discriminate]. now injection V as <- _.
Qed.
(** REFUTED without verkey: for an identifier that is a key the owner has no full verkey. *)
Theorem C99_agree_refuted : forall k, is_key k -> exists x, make_identity (Some (b58encode k)) None None = Some x /\
  full_verkey x = Some None /\ verifier None (Some (b58encode k)) = Some (b58encode k, Some k).
Proof.
  intros k K. destruct K as [KB KL]. destruct (encode_nonempty k KB (key_ne k KL)) as (c & r & E).
  unfold make_identity. rewrite (given_ne (b58encode k)) by (rewrite E; discriminate). cbn [given].
  eexists. split; [reflexivity|]. split; [reflexivity|]. apply C99_cryptonym; [now split|now left].
Qed.

(** REFUTED: that a key has one verkey.  The text of the key in hexadecimal, written in base58, is
    another (verkeys on the ledger must have 32 bytes, see C78, and are not concerned). *)
Theorem C99_hex_refuted : forall k, is_key k -> let v := b58encode (hex k) in
  v <> b58encode k /\ verifier (Some v) None = Some (v, Some k).
Proof.
  intros k [KB KL]. cbv zeta. destruct (unhex_hex k KB) as (A & B & C). rewrite KL in C. split.
  - intros E. assert (Some (hex k) = Some k) as [= Q] by (rewrite <- (decode_encode _ B), <- (decode_encode _ KB); now rewrite E).
    rewrite Q in C. lia.
  - unfold verifier. cbn [given]. rewrite (decode_encode _ B). unfold nacl_verifier. rewrite C. cbn [Nat.eqb Nat.mul Nat.add].
    destruct (hex k) as [|y t] eqn:Q; [discriminate C|]. rewrite A, KL. reflexivity.
Qed.

(** A key with leading zeros. *)
Definition demo_key : bytes := [0; 0; 5] ++ repeat 200 12 ++ [0; 0; 7] ++ repeat 9 14.
Example demo_is_key : is_key demo_key.
Proof. split; [|reflexivity]. repeat constructor. Qed.
Example demo_signer : exists x, signer None demo_key = Some x /\ abbreviated x = true /\
  option_map (fun v => verifier (Some v) (Some (identifier x))) (verkey x) = Some (Some (b58encode demo_key, Some demo_key)).
Proof. eexists. split; [vm_compute; reflexivity|]. split; vm_compute; reflexivity. Qed.
Definition text (s : string) : str := map N_of_ascii (list_ascii_of_string s).
Example demo_base58 : b58encode [0; 0; 1; 0] = text "115R" /\ b58decode (text "115R") = Some [0; 0; 1; 0] /\ b58decode (text "1l") = None.
Proof. repeat split. Qed.
Example demo_name : base58_only (text "Anna") /\ ~ base58_only (text "Ann0").
Proof.
  split; [apply decode_some; eexists; reflexivity|]. intros H. apply decode_some in H as [b H]. discriminate H.
Qed.
Example demo_agree : exists x, make_identity (Some (text "Anna")) (Some (b58encode demo_key)) None = Some x /\
  verifier (Some (b58encode demo_key)) (Some (text "Anna")) = Some (b58encode demo_key, Some demo_key).
Proof. eexists. split; vm_compute; reflexivity. Qed.

Print Assumptions C99_decode.
Print Assumptions C99_encode.
Print Assumptions C99_one_name.
Print Assumptions C99_reads.
Print Assumptions C99_signer.
Print Assumptions C99_named.
Print Assumptions C99_bad_name.
Print Assumptions C99_distinct.
Print Assumptions C99_cryptonym.
Print Assumptions C99_key.
Print Assumptions C99_abbreviated.
Print Assumptions C99_agree_partial.
Print Assumptions C99_agree_refuted.
Print Assumptions C99_hex_refuted.
