(** Proofs for C85. *)
From Coq Require Import List Arith Bool Lia Permutation Sorted.
From Verif Require Import Dict Record_Model Record_Spec.
Import ListNotations.

(** *** sorting *)
Lemma ins_perm {V} (x : nat * V) l : Permutation (ins x l) (x :: l).
Proof. induction l as [|y l IH]; simpl; [reflexivity|]. destruct (fst x <=? fst y); [reflexivity|]. rewrite IH. apply perm_swap. Qed.
Lemma sort_perm {V} (l : list (nat * V)) : Permutation (sort l) l.
Proof. induction l as [|x l IH]; simpl; [reflexivity|]. rewrite ins_perm, IH. reflexivity. Qed.
Lemma sort_nil {V} (l : list (nat * V)) : sort l = [] -> l = [].
Proof. intros E. apply Permutation_nil. rewrite <- (sort_perm l), E. reflexivity. Qed.
Notation below := (fun a b => fst a < fst b) (only parsing).
Lemma ins_sorted {V} (x : nat * V) l : ~ In (fst x) (map fst l) -> StronglySorted (fun a b => fst a < fst b) l ->
  StronglySorted (fun a b => fst a < fst b) (ins x l).
Proof.
  induction l as [|y l IH]; simpl; intros N O; [constructor; constructor|]. apply StronglySorted_inv in O as [O F].
  destruct (Nat.leb_spec (fst x) (fst y)) as [L|L].
  - constructor; [constructor; assumption|]. constructor; [lia|]. eapply Forall_impl; [|exact F]. cbn beta. intros z Z. lia.
  - constructor; [apply IH; tauto|]. apply Forall_forall. intros z Z. apply (Permutation_in _ (ins_perm x l)) in Z. destruct Z as [<-|Z]; [lia|].
    rewrite Forall_forall in F. apply F. exact Z.
Qed.
Lemma sort_sorted {V} (l : list (nat * V)) : NoDup (map fst l) -> StronglySorted (fun a b => fst a < fst b) (sort l).
Proof.
  induction l as [|x l IH]; simpl; intros N; [constructor|]. inversion N as [|? ? N1 N2]; subst. apply ins_sorted; [|auto].
  intros I. apply N1. apply (Permutation_in _ (Permutation_map fst (sort_perm l))). exact I.
Qed.
Lemma sorted_nodup {V} (l : list (nat * V)) : StronglySorted (fun a b => fst a < fst b) l -> NoDup (map fst l).
Proof.
  induction l as [|x l IH]; simpl; intros O; [constructor|]. apply StronglySorted_inv in O as [O F]. constructor; [|auto].
  intros I. apply in_map_iff in I as (y & E & I). rewrite Forall_forall in F. specialize (F y I). lia.
Qed.
Lemma sorted_ext {V} (a : list (nat * V)) : forall b, StronglySorted (fun a b => fst a < fst b) a -> StronglySorted (fun a b => fst a < fst b) b ->
  (forall x, In x a <-> In x b) -> a = b.
Proof.
  induction a as [|x a IH]; intros [|y b] A B E; [reflexivity| | |].
  - destruct (proj2 (E y) (or_introl eq_refl)).
  - destruct (proj1 (E x) (or_introl eq_refl)).
  - apply StronglySorted_inv in A as [A FA]. apply StronglySorted_inv in B as [B FB]. rewrite Forall_forall in FA, FB.
    assert (X : x = y).
    { destruct (proj1 (E x) (or_introl eq_refl)) as [H|H]; [congruence|].
      destruct (proj2 (E y) (or_introl eq_refl)) as [H'|H']; [congruence|]. specialize (FA _ H'). specialize (FB _ H). lia. }
    subst y. f_equal. apply IH; [assumption|assumption|]. intros z. split; intros Z.
    + destruct (proj1 (E z) (or_intror Z)) as [<-|H]; [|exact H]. specialize (FA _ Z). lia.
    + destruct (proj2 (E z) (or_intror Z)) as [<-|H]; [|exact H]. specialize (FB _ Z). lia.
Qed.
Lemma sort_same {V} (a b : dict V) : NoDup (map fst a) -> NoDup (map fst b) -> same_dict a b -> sort a = sort b.
Proof.
  intros A B E. apply sorted_ext; [apply sort_sorted; exact A|apply sort_sorted; exact B|]. intros (k, v).
  assert (P : forall l : dict V, In (k, v) (sort l) <-> In (k, v) l).
  { intros l. split; apply Permutation_in; [apply sort_perm|symmetry; apply sort_perm]. }
  rewrite !P. split; intros I.
  - apply get_in. rewrite <- (E k). apply in_get; assumption.
  - apply get_in. rewrite (E k). apply in_get; assumption.
Qed.

(** *** comparing messages *)
Lemma val_eqb_ok a b : val_eqb a b = true <-> a = b.
Proof.
  destruct a, b; simpl; split; intros H; try discriminate; try reflexivity; try (apply Nat.eqb_eq in H; congruence);
    try (injection H as ->; apply Nat.eqb_refl).
  - apply eqb_prop in H. congruence.
  - injection H as ->. apply eqb_reflx.
Qed.
Lemma opt_eqb_ok {A} (e : A -> A -> bool) (O : forall a b, e a b = true <-> a = b) a b : opt_eqb e a b = true <-> a = b.
Proof. destruct a, b; simpl; [rewrite O; split; congruence|split; discriminate|split; discriminate|tauto]. Qed.
Lemma list_eqb_ok {A} (e : A -> A -> bool) (O : forall a b, e a b = true <-> a = b) a b : list_eqb e a b = true <-> a = b.
Proof.
  revert b. induction a as [|x a IH]; intros [|y b]; simpl; try (split; congruence). rewrite andb_true_iff, O, IH. split; [intros [-> ->]; reflexivity|intros E; injection E; auto].
Qed.
Lemma item_eqb_ok a b : item_eqb a b = true <-> a = b.
Proof.
  destruct a as (k, v), b as (k', v'). unfold item_eqb. simpl. rewrite andb_true_iff, Nat.eqb_eq, val_eqb_ok. split; [intros [-> ->]; reflexivity|intros E; injection E; auto].
Qed.
Lemma msg_eqb_ok a b : msg_eqb a b = true <-> a = b.
Proof.
  destruct a as [a1 a2 a3 a4 a5 a6], b as [b1 b2 b3 b4 b5 b6]. unfold msg_eqb. cbn [m_from m_req_id m_op m_protocol m_taa m_endorser].
  rewrite !andb_true_iff, (opt_eqb_ok _ (opt_eqb_ok _ (list_eqb_ok _ Nat.eqb_eq))), !(opt_eqb_ok _ Nat.eqb_eq), (list_eqb_ok _ item_eqb_ok).
  split; [intros [[[[[-> ->] ->] ->] ->] ->]; reflexivity|intros E; injection E; auto 10].
Qed.
Lemma verify_ok i m s : verify i m s = true <-> s = Sig i m.
Proof.
  destruct s as [j m'|n]; simpl; [|split; discriminate]. rewrite andb_true_iff, Nat.eqb_eq, msg_eqb_ok. split; [intros [-> ->]; reflexivity|intros E; injection E; auto].
Qed.

(** *** authentication *)
Section Loop.
  Variable known : nat -> bool.
  Lemma auth_loop_all m sigs : forall th c,
    (forall i s, In (i, s) sigs -> known i = true /\ s = Sig i m) -> length c + length sigs = th -> sigs <> [] ->
    auth_loop known m th sigs c = Some (c ++ map fst sigs).
  Proof.
    induction sigs as [|(i, s) rest IH]; intros th c A L N; [contradiction|]. simpl.
    destruct (A i s (or_introl eq_refl)) as [K E]. rewrite K. simpl. rewrite (proj2 (verify_ok i m s) E).
    rewrite app_length. simpl in *. destruct rest as [|x rest].
    - simpl in *. rewrite (proj2 (Nat.eqb_eq _ _)) by lia. reflexivity.
    - rewrite (proj2 (Nat.eqb_neq _ _)) by (simpl in *; lia). rewrite IH.
      + rewrite <- app_assoc. reflexivity.
      + intros j t I. apply A. right. exact I.
      + rewrite app_length. simpl in *. lia.
      + discriminate.
  Qed.
  Lemma auth_loop_len m sigs : forall th c l, auth_loop known m th sigs c = Some l ->
    length l = th /\ length l <= length c + length sigs.
  Proof.
    induction sigs as [|(i, s) rest IH]; simpl; intros th c l E; [discriminate|]. destruct (known i); simpl in E; [|discriminate].
    destruct (verify i m s).
    - destruct (Nat.eqb_spec (length (c ++ [i])) th) as [H|H].
      + injection E as <-. rewrite app_length in *. simpl in *. lia.
      + apply IH in E. rewrite app_length in E. simpl in E. lia.
    - apply IH in E. lia.
  Qed.
  Lemma auth_loop_inv m sigs : forall th c l, auth_loop known m th sigs c = Some l -> length c + length sigs = th ->
    l = c ++ map fst sigs /\ (forall i s, In (i, s) sigs -> known i = true /\ s = Sig i m) /\ sigs <> [].
  Proof.
    induction sigs as [|(i, s) rest IH]; simpl; intros th c l E L; [discriminate|]. destruct (known i) eqn:K; simpl in E; [|discriminate].
    destruct (verify i m s) eqn:V.
    - apply verify_ok in V. destruct (Nat.eqb_spec (length (c ++ [i])) th) as [H|H].
      + injection E as <-. rewrite app_length in H. simpl in H. destruct rest; [|simpl in *; lia]. simpl. split; [reflexivity|]. split; [|discriminate].
        intros j t [I|[]]. injection I as <- <-. auto.
      + destruct (IH _ _ _ E) as (E1 & A & _); [rewrite app_length; simpl; lia|]. split; [rewrite E1, <- app_assoc; reflexivity|]. split; [|discriminate].
        intros j t [I|I]; [injection I as <- <-; auto|auto].
    - apply auth_loop_len in E. lia.
  Qed.
  Lemma authenticate_inv r l : authenticate known r None = Some l ->
    exists d, to_check r = Some d /\ d <> [] /\ l = map fst d /\ forall i s, In (i, s) d -> known i = true /\ s = Sig i (to_serialize r).
  Proof.
    unfold authenticate. destruct (to_check r) as [d|]; [|discriminate]. unfold authenticate_multi. intros E.
    apply auth_loop_inv in E; [|reflexivity]. destruct E as (-> & A & N). exists d. auto.
  Qed.
  Lemma authenticate_intro r d : to_check r = Some d -> d <> [] -> (forall i s, In (i, s) d -> known i = true /\ s = Sig i (to_serialize r)) ->
    authenticate known r None = Some (map fst d).
  Proof. intros C N A. unfold authenticate. rewrite C. unfold authenticate_multi. apply (auth_loop_all _ _ _ []); auto. Qed.
End Loop.

(** *** the transaction *)
Lemma new_txn_digests r : t_digest (req_to_txn (new_obj r)) = Some (full_state r) /\ t_payload_digest (req_to_txn (new_obj r)) = Some (payload_state r None).
Proof. split; reflexivity. Qed.
Lemma req_to_txn_fields o : let t := req_to_txn o in let r := o_req o in
  t_type t = pop K_TYPE (operation r) /\ t_protocol t = txn_protocol (protocol r) /\
  t_version t = txn_version (pop K_TYPE (operation r)) (pop K_VER (del K_TYPE (operation r))) /\
  t_data t = del K_VER (del K_TYPE (operation r)) /\ t_from t = identifier r /\ t_req_id t = req_id r /\ t_taa t = taa r /\
  t_endorser t = endorser r /\ t_sigs t = txn_sigs r.
Proof.
  cbn zeta. unfold req_to_txn. destruct (read_digest o) as [o1 d]. destruct (read_payload_digest o1) as [o2 pd].
  cbn [t_type t_protocol t_version t_data t_from t_req_id t_taa t_endorser t_sigs]. auto 12.
Qed.
Lemma pop_ver op : pop K_VER (del K_TYPE op) = pop K_VER op.
Proof. unfold pop. rewrite get_del. reflexivity. Qed.
Lemma validate_inv r : validate r = true ->
  (exists s, get K_TYPE (operation r) = Some (PStr s)) /\ protocol r = Some 2 /\
  (truthy (signatures r) = true -> signature r = None) /\ (identifier r = None -> signature r = None).
Proof.
  unfold validate. rewrite !andb_true_iff. intros [[[[[A B] C] D] E] F]. split; [|split; [|split]].
  - destruct (get 0 (operation r)) as [[| |s|]|]; try discriminate. exists s. reflexivity.
  - destruct (protocol r) as [p|]; [|discriminate]. apply Nat.eqb_eq in C. congruence.
  - intros T. rewrite T in D. destruct (signature r); [discriminate|reflexivity].
  - intros N. rewrite N in F. rewrite F in D. destruct (signature r); [discriminate|reflexivity].
Qed.

Lemma operation_back r : NoDup (map fst (operation r)) -> (exists s, get K_TYPE (operation r) = Some (PStr s)) -> version_plain r ->
  let t := req_to_txn (new_obj r) in
  same_dict (operation_of t) (operation r) /\ NoDup (map fst (operation_of t)).
Proof.
  intros N (s & T) VP. cbn zeta. destruct (req_to_txn_fields (new_obj r)) as (E1 & _ & E3 & E4 & _). cbn [o_req new_obj] in *.
  assert (D : NoDup (map fst (t_data (req_to_txn (new_obj r))))) by (rewrite E4; unfold del; apply nodup_filter, nodup_filter; exact N).
  assert (G : forall k, get k (t_data (req_to_txn (new_obj r))) = if k =? K_VER then None else if k =? K_TYPE then None else get k (operation r))
    by (intros k; rewrite E4, !get_del; reflexivity).
  unfold operation_of, get_type, get_payload_txn_version, get_payload_data. rewrite E1, E3, pop_ver.
  assert (T' : pop 0 (operation r) = PStr s) by (unfold pop; rewrite T; reflexivity). rewrite T'. unfold txn_version. unfold version_plain in VP.
  destruct (get 1 (operation r)) as [v|] eqn:V.
  - assert (P : pop 1 (operation r) = v) by (unfold pop; rewrite V; reflexivity). rewrite P.
    assert (W : match v with PNone => if 1 <? current_version (PStr s) then Some (PStr (current_version (PStr s))) else None | _ => Some v end = Some v)
      by (destruct v; [contradiction|reflexivity..]). rewrite W. cbn [app]. split.
    + intros k. cbn [get]. destruct (Nat.eqb_spec k 0) as [->|K0]; [congruence|]. destruct (Nat.eqb_spec k 1) as [->|K1]; [congruence|].
      rewrite G, (proj2 (Nat.eqb_neq k 1) K1), (proj2 (Nat.eqb_neq k 0) K0). reflexivity.
    + cbn [map fst]. constructor; [|constructor; [|exact D]].
      * intros [H|H]; [discriminate|]. revert H. apply (proj1 (get_none _ _)). rewrite G. reflexivity.
      * apply (proj1 (get_none _ _)). rewrite G. reflexivity.
  - assert (P : pop 1 (operation r) = PNone) by (unfold pop; rewrite V; reflexivity). rewrite P.
    assert (W : (1 <? current_version (PStr s)) = false).
    { unfold current_version. destruct (val_eqb (PStr s) T_TAA) eqn:Q; [|reflexivity]. apply val_eqb_ok in Q. congruence. }
    rewrite W. cbn [app]. split.
    + intros k. cbn [get]. destruct (Nat.eqb_spec k 0) as [->|K0]; [congruence|].
      rewrite G. destruct (Nat.eqb_spec k 1) as [->|K1]; [congruence|]. rewrite (proj2 (Nat.eqb_neq k 0) K0). reflexivity.
    + cbn [map fst]. constructor; [|exact D]. apply (proj1 (get_none _ _)). rewrite G. reflexivity.
Qed.

Lemma message_back r : validate r = true -> dicts r -> version_plain r -> message_of (req_to_txn (new_obj r)) = to_serialize r.
Proof.
  intros V (N & _) VP. destruct (validate_inv r V) as (T & P & _). destruct (operation_back r N T VP) as [S1 S2].
  unfold message_of, to_serialize. rewrite (sort_same _ _ S2 N S1).
  destruct (req_to_txn_fields (new_obj r)) as (_ & E2 & _ & _ & E5 & E6 & E7 & E8 & _). cbn [o_req new_obj] in *.
  unfold get_from, get_req_id, get_protocol_version, get_endorser. rewrite E2, E5, E6, E7, E8, P. reflexivity.
Qed.

(** the signatures written are those that were checked *)
Lemma sigs_checked r : validate r = true -> forall d, to_check r = Some d -> t_sigs (req_to_txn (new_obj r)) = Some (map (fun x => (Some (fst x), snd x)) (sort d)).
Proof.
  intros V d C. destruct (req_to_txn_fields (new_obj r)) as (_ & _ & _ & _ & _ & _ & _ & _ & ->). cbn [o_req new_obj].
  destruct (validate_inv r V) as (_ & _ & T & I). unfold to_check in C. unfold txn_sigs.
  destruct (signature r) as [s|] eqn:Sg.
  - destruct (identifier r) as [i|]; [|specialize (I eq_refl); discriminate]. injection C as <-. reflexivity.
  - destruct (signatures r) as [d'|]; [|discriminate]. destruct (identifier r); injection C as <-; reflexivity.
Qed.

Lemma flat_some (l : list (nat * sig)) :
  flat_map (fun y : option nat * sig => match fst y with Some i => [i] | None => [] end) (map (fun x => (Some (fst x), snd x)) l) = map fst l.
Proof. induction l as [|x l IH]; simpl; [reflexivity|]. rewrite IH. reflexivity. Qed.

Lemma audit_ok known r l : validate r = true -> dicts r -> version_plain r -> authenticate known r None = Some l ->
  exists l', audit (req_to_txn (new_obj r)) = Some l' /\ Permutation l l'.
Proof.
  intros V D VP A. apply authenticate_inv in A as (d & C & N & -> & G). exists (map fst (sort d)).
  split; [|apply Permutation_map; symmetry; apply sort_perm].
  unfold audit. rewrite (sigs_checked r V d C), (message_back r V D VP).
  destruct (sort d) as [|x q] eqn:Sd; [apply sort_nil in Sd; contradiction|].
  assert (F : forallb (fun y => match fst y with Some i => verify i (to_serialize r) (snd y) | None => false end)
                (map (fun x0 : nat * sig => (Some (fst x0), snd x0)) (x :: q)) = true).
  { apply forallb_forall. intros y Y. apply in_map_iff in Y as ((i, s) & <- & Y). cbn [fst snd]. apply verify_ok.
    apply G. apply (Permutation_in _ (sort_perm d)). rewrite Sd. exact Y. }
  cbn [map] in *. rewrite F. f_equal. exact (flat_some (x :: q)).
Qed.
Lemma audit_back r l : validate r = true -> dicts r -> version_plain r -> audit (req_to_txn (new_obj r)) = Some l ->
  exists l', authenticate (fun _ => true) r None = Some l' /\ Permutation l' l.
Proof.
  intros V D VP A. destruct (req_to_txn_fields (new_obj r)) as (_ & _ & _ & _ & _ & _ & _ & _ & E). cbn [o_req new_obj] in E.
  unfold audit in A. rewrite (message_back r V D VP) in A.
  assert (C : exists d, to_check r = Some d).
  { unfold to_check. unfold txn_sigs in E. destruct (signature r) as [s|] eqn:Sg.
    - destruct (validate_inv r V) as (_ & _ & _ & I). destruct (identifier r); [eauto|]. rewrite Sg in I. specialize (I eq_refl). discriminate.
    - destruct (signatures r); [destruct (identifier r); eauto|]. rewrite E in A. discriminate. }
  destruct C as (d & C). rewrite (sigs_checked r V d C) in A.
  destruct (map (fun x => (Some (fst x), snd x)) (sort d)) as [|y q] eqn:M; [discriminate|]. rewrite <- M in A.
  assert (F : forallb (fun y => match fst y with Some i => verify i (to_serialize r) (snd y) | None => false end)
                (map (fun x0 : nat * sig => (Some (fst x0), snd x0)) (sort d)) = true) by (destruct forallb; [reflexivity|discriminate]).
  rewrite F in A. injection A as <-. rewrite flat_some. exists (map fst d). split; [|apply Permutation_map; symmetry; apply sort_perm].
  apply authenticate_intro; [exact C| |].
  - intros ->. discriminate.
  - intros i s Is. split; [reflexivity|]. apply verify_ok. rewrite forallb_forall in F.
    apply (F (Some i, s)). apply in_map_iff. exists (i, s). split; [reflexivity|]. apply (Permutation_in _ (Permutation_sym (sort_perm d))). exact Is.
Qed.

(** *** the wallet *)
Definition op_base (r : request) := (req_id r, operation r, protocol r, taa r, endorser r, identifier r, signature r).
Definition multi_inv (r0 : request) (keys : list nat) (r : request) : Prop :=
  op_base r = op_base r0 /\
  exists d, signatures r = Some d /\ (forall i s, In (i, s) d <-> In i keys /\ s = Sig i (to_serialize r0)) /\ NoDup (map fst d).
Lemma set_in {V} k (v : V) d k' v' : NoDup (map fst d) -> (In (k', v') (set k v d) <-> if k' =? k then v' = v else In (k', v') d).
Proof.
  intros N. split.
  - intros I. apply (in_get _ _ _ (nodup_set k v d N)) in I. rewrite get_set in I. destruct (k' =? k); [congruence|]. apply get_in. exact I.
  - intros I. apply get_in. rewrite get_set. destruct (k' =? k); [congruence|]. apply in_get; assumption.
Qed.
Lemma to_serialize_base r r' : op_base r = op_base r' -> to_serialize r = to_serialize r'.
Proof. unfold op_base. intros E. injection E as E1 E2 E3 E4 E5 E6 E7. unfold to_serialize. rewrite E1, E2, E3, E4, E5, E6. reflexivity. Qed.
Lemma payload_identified r i : identifier r = Some i -> payload_state r None = to_serialize r.
Proof. intros E. unfold payload_state, to_serialize, author. rewrite E. reflexivity. Qed.
Lemma multi_many r0 a is_ : forall r keys, identifier r0 = Some a -> multi_inv r0 keys r ->
  multi_inv r0 (keys ++ is_) (fold_left multi_sign is_ r).
Proof.
  induction is_ as [|i is_ IH]; intros r keys A H; cbn [fold_left]; [rewrite app_nil_r; exact H|].
  replace (keys ++ i :: is_) with ((keys ++ [i]) ++ is_) by (rewrite <- app_assoc; reflexivity). apply IH; [exact A|].
  destruct H as (B & d & E & D & N). unfold multi_inv, multi_sign, add_signature. rewrite E. split; [exact B|].
  exists (set i (sign i (payload_state r None)) d). split; [reflexivity|]. split; [|apply nodup_set; exact N].
  assert (Pl : payload_state r None = to_serialize r0).
  { rewrite (payload_identified r a); [apply to_serialize_base; exact B|]. unfold op_base in B. injection B as _ _ _ _ _ B6 _. rewrite B6. exact A. }
  intros j s. rewrite set_in by exact N. unfold sign. rewrite Pl, in_app_iff. cbn [In]. destruct (Nat.eqb_spec j i) as [->|Ne].
  - split; [intros ->; auto|tauto].
  - rewrite D. split; [tauto|]. intros [[I|[I|[]]] Q]; [auto|congruence].
Qed.

(** *** the cached digests *)
Lemma uses_req us : forall o, o_req (uses o us) = o_req (uses (Obj (o_req o) None None) us).
Proof.
  induction us as [|u us IH]; intros o; [reflexivity|]. unfold uses in *. cbn [fold_left]. rewrite IH. rewrite (IH (use_step (Obj _ None None) u)).
  f_equal. f_equal. f_equal. destruct u; try reflexivity; unfold use_step, read_digest, read_payload_digest; cbn [o_digest o_payload o_req]; [destruct (o_digest o)|destruct (o_payload o)]; reflexivity.
Qed.
Lemma uses_cached us : forall o d, o_digest o = Some d -> o_digest (uses o us) = Some d.
Proof.
  induction us as [|u us IH]; intros o d E; [exact E|]. unfold uses in *. cbn [fold_left]. apply IH.
  destruct u; try exact E; unfold use_step, read_digest, read_payload_digest; [rewrite E; exact E|destruct (o_payload o); exact E].
Qed.
Lemma uses_cached_payload us : forall o d, o_payload o = Some d -> o_payload (uses o us) = Some d.
Proof.
  induction us as [|u us IH]; intros o d E; [exact E|]. unfold uses in *. cbn [fold_left]. apply IH.
  destruct u; try exact E; unfold use_step, read_digest, read_payload_digest; [destruct (o_digest o); exact E|rewrite E; exact E].
Qed.
Lemma uses_uncached us : forall o, o_digest o = None -> ~ In UDigest us -> o_digest (uses o us) = None.
Proof.
  induction us as [|u us IH]; intros o E N; [exact E|]. unfold uses in *. cbn [fold_left]. apply IH; [|intros I; apply N; right; exact I].
  destruct u; try exact E; unfold use_step, read_payload_digest; [exfalso; apply N; left; reflexivity|destruct (o_payload o); exact E].
Qed.
Lemma uses_uncached_payload us : forall o, o_payload o = None -> ~ In UPayload us -> o_payload (uses o us) = None.
Proof.
  induction us as [|u us IH]; intros o E N; [exact E|]. unfold uses in *. cbn [fold_left]. apply IH; [|intros I; apply N; right; exact I].
  destruct u; try exact E; unfold use_step, read_digest; [destruct (o_digest o); exact E|exfalso; apply N; left; reflexivity].
Qed.

Definition from_given (s : sig) : Prop := match s with Sig _ m => m_from m <> None | Junk _ => False end.
Lemma multi_given is_ : forall r, match signatures r with Some d => NoDup (map fst d) /\ forall i s, In (i, s) d -> from_given s | None => True end ->
  identifier r = None -> signature r = None ->
  let r' := fold_left multi_sign is_ r in
  match signatures r' with Some d => NoDup (map fst d) /\ forall i s, In (i, s) d -> from_given s | None => True end /\ identifier r' = None /\ signature r' = None.
Proof.
  induction is_ as [|i is_ IH]; intros r H A B; cbn [fold_left]; [cbn zeta; auto|]. apply IH; [|exact A|exact B].
  unfold multi_sign, add_signature. cbn [signatures].
  assert (N : NoDup (map fst (match signatures r with Some d => d | None => [] end))) by (destruct (signatures r); [tauto|constructor]).
  split; [apply nodup_set; exact N|]. intros j s I. apply set_in in I; [|exact N]. destruct (j =? i).
  - subst s. cbn. discriminate.
  - destruct (signatures r) as [d|]; [destruct H as [_ H]; eauto|destruct I].
Qed.
Lemma sort_same_inv {V} (a b : dict V) : NoDup (map fst a) -> NoDup (map fst b) -> sort a = sort b -> same_dict a b.
Proof.
  intros A B E.
  assert (P : Permutation a b) by (rewrite <- (sort_perm a), E; apply sort_perm).
  intros k. destruct (get k a) as [v|] eqn:G.
  - symmetry. apply in_get; [exact B|]. apply (Permutation_in _ P). apply get_in. exact G.
  - symmetry. apply get_none. apply (proj1 (get_none k a)) in G. intros I. apply G. apply (Permutation_in _ (Permutation_sym (Permutation_map fst P))). exact I.
Qed.
Lemma to_serialize_inv r r' : NoDup (map fst (operation r)) -> NoDup (map fst (operation r')) -> to_serialize r = to_serialize r' ->
  identifier r = identifier r' /\ req_id r = req_id r' /\ same_dict (operation r) (operation r') /\ protocol r = protocol r' /\ taa r = taa r' /\ endorser r = endorser r'.
Proof.
  intros N N' E. unfold to_serialize in E. injection E as E1 E2 E3 E4 E5 E6. split; [destruct (identifier r), (identifier r'); congruence|].
  split; [exact E2|]. split; [apply sort_same_inv; assumption|auto].
Qed.
