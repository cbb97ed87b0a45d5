(** Decision procedures for the assumptions of Views_Spec.v, used for concrete pools. *)
From Coq Require Import List Arith Bool Lia.
From Verif Require Import Quorum_Model Quorum_Props NewView_Model NewView_Props Tpc_Model Tpc_Proofs Tpc_Proofs2 Tpc_Props Views_Model Views_Spec Views_Proofs.
Import ListNotations.

Definition output_eq : forall a b : output, {a = b} + {a <> b}.
Proof. repeat decide equality. Defined.
Definition pp_eq : forall a b : pre_prepare, {a = b} + {a <> b}.
Proof. repeat decide equality. Defined.
Definition vc_eq : forall a b : view_change_msg, {a = b} + {a <> b}.
Proof. repeat decide equality. Defined.
Definition commit_eq : forall a b : commit_msg, {a = b} + {a <> b}.
Proof. repeat decide equality. Defined.
Definition yes {A B} (x : {A} + {B}) : bool := if x then true else false.
Lemma yes_true {A B} (x : {A} + {B}) : yes x = true -> A.
Proof. destruct x; [auto|discriminate]. Qed.

Definition mem (x : nat) (l : list nat) : bool := yes (in_dec Nat.eq_dec x l).
Definition empty {A} (l : list A) : bool := match l with [] => true | _ => false end.
Lemma empty_nil {A} (l : list A) : empty l = true -> l = [].
Proof. destruct l; [reflexivity|discriminate]. Qed.

Fixpoint nodupb (l : list nat) : bool := match l with [] => true | x :: l' => negb (mem x l') && nodupb l' end.
Lemma nodupb_ok l : nodupb l = true -> NoDup l.
Proof.
  induction l as [|x l IH]; simpl; [constructor|]. intros E. apply andb_prop in E as [E1 E2]. constructor; [|auto].
  unfold mem, yes in E1. destruct (in_dec Nat.eq_dec x l); [discriminate|assumption].
Qed.

Definition view_startb (st : replica) : bool :=
  empty (r_sent st) && empty (r_pps st) && empty (r_prepares st) && empty (r_commits st) &&
  forallb (fun e => negb (fst (fst e) =? r_view st)) (r_prep_wait st) &&
  forallb (fun e => negb (fst (fst e) =? r_view st)) (r_comm_wait st) &&
  forallb (fun k => negb (fst k =? r_view st) || (snd k <=? snd (r_last_ordered st))) (r_ordered st) &&
  (r_last_pp st =? snd (r_last_ordered st)) && (r_low st <=? snd (r_last_ordered st)).
Lemma view_startb_ok st : view_startb st = true -> view_start st.
Proof.
  unfold view_startb. rewrite !andb_true_iff. intros ((((((((A & B) & C) & D) & E) & F) & Go) & K) & L).
  rewrite forallb_forall in E, F, Go. constructor; try (apply empty_nil; assumption).
  - intros k l X. apply get_in in X. specialize (E _ X). apply negb_true_iff, Nat.eqb_neq in E. exact E.
  - intros k l X. apply get_in in X. specialize (F _ X). apply negb_true_iff, Nat.eqb_neq in F. exact F.
  - intros k X V. specialize (Go k X). rewrite V, Nat.eqb_refl in Go. simpl in Go. apply Nat.leb_le. exact Go.
  - apply Nat.eqb_eq, K.
  - apply Nat.leb_le, L.
Qed.

Definition well_formedb (cfg : config) (st : replica) (evs : list event) : bool :=
  forallb (fun e => match e with
                    | EPrePrepare _ x _ => negb (x =? me cfg)
                    | EOldPrePrepare pp _ => (1 <=? r_prev_cert st) &&
                        forallb (fun e' => match e' with
                                           | EOldPrePrepare pp' _ => negb (pp_seq pp =? pp_seq pp') || yes (pp_eq pp pp')
                                           | _ => true
                                           end) evs
                    | _ => true
                    end) evs.
Lemma well_formedb_ok cfg st evs : well_formedb cfg st evs = true -> well_formed cfg st evs.
Proof.
  unfold well_formedb. rewrite forallb_forall. intros H. split; [|split].
  - intros pp x ck X. specialize (H _ X). simpl in H. apply negb_true_iff, Nat.eqb_neq in H. exact H.
  - intros pp ck X. specialize (H _ X). simpl in H. apply andb_prop in H as [H _]. apply Nat.leb_le, H.
  - intros pp ck pp' ck' X X' E. specialize (H _ X). cbv beta iota in H. apply andb_prop in H as [_ H].
    rewrite forallb_forall in H. specialize (H _ X'). cbv beta iota in H. rewrite E, Nat.eqb_refl in H. exact (yes_true _ H).
Qed.

Section Check.
  Variable S : system.
  Definition correctb (x : node) : bool := mem x (all_nodes S) && negb (mem x (faulty_nodes S)).
  Lemma correctb_ok x : correct S x -> correctb x = true.
  Proof.
    intros [A B]. unfold correctb, mem, yes. destruct (in_dec _ _ _); [|contradiction]. destruct (in_dec _ _ _); [contradiction|reflexivity].
  Qed.

  Definition is_batchb (pp : pre_prepare) (b : batch_id) : bool :=
    (pp_seq pp =? pp_seq_no b) && (pp_dig pp =? pp_digest b) && (pp_orig_view pp =? pp_view_no b).
  Lemma is_batchb_ok pp b : is_batchb pp b = true -> is_batch pp b.
  Proof. unfold is_batchb, is_batch. rewrite !andb_true_iff, !Nat.eqb_eq. tauto. Qed.

  (** for every correct node in every view *)
  Definition everywhere (f : node -> nat -> bool) : bool :=
    forallb (fun x => negb (correctb x) || forallb (f x) (seq 0 (views S))) (all_nodes S).
  Lemma everywhere_ok f : everywhere f = true -> forall x v, correct S x -> v < views S -> f x v = true.
  Proof.
    unfold everywhere. rewrite forallb_forall. intros H x v Cx Lv. specialize (H x (proj1 Cx)). rewrite (correctb_ok x Cx) in H.
    simpl in H. rewrite forallb_forall in H. apply H, in_seq. lia.
  Qed.

  Definition startb (x : node) (v : nat) : bool :=
    let s := stays S x v in
    (me (s_cfg s) =? x) && (log_size (s_cfg s) =? log S) && view_startb (s_start s) && (r_view (s_start s) =? v) &&
    empty (r_prepared (s_start s)) && empty (r_preprepared (s_start s)) &&
    (r_high (s_start s) =? r_low (s_start s) + log S) && well_formedb (s_cfg s) (s_start s) (s_events s).
  Definition new_viewb (x : node) (v : nat) : bool :=
    match s_new_view (stays S x v) with
    | None => (v =? 0) || empty (s_events (stays S x v))
    | Some a =>
        (0 <? v) && nodupb (map fst (nv_vcs a)) && forallb (fun y => mem y (all_nodes S)) (map fst (nv_vcs a)) &&
        forallb (fun e => negb (correctb (fst e)) || yes (vc_eq (snd e) (view_change_of S (fst e) v))) (nv_vcs a) &&
        new_view_valid (Quorums (length (all_nodes S))) (log S) (map snd (nv_vcs a)) (nv_cp a) (nv_batches a) &&
        (r_prev_cert (s_start (stays S x v)) =? prev_view_prepare_cert (nv_cp a) (nv_batches a))
    end.
  Definition oldb (x : node) (v : nat) : bool :=
    forallb (fun e => match e with
                      | EOldPrePrepare pp _ =>
                          match s_new_view (stays S x v) with
                          | Some a => existsb (is_batchb pp) (nv_batches a)
                          | None => false
                          end
                      | _ => true
                      end) (s_events (stays S x v)).
  Definition lowb (x : node) (v : nat) : bool :=
    (views S <=? 1 + v) || (r_low (last_state S x v) <=? r_low (s_start (stays S x (1 + v)))).
  Definition sys_okb : bool :=
    nodupb (all_nodes S) && (1 <=? length (all_nodes S)) &&
    (length (faulty_nodes S) <=? getMaxFailures (length (all_nodes S))) &&
    everywhere startb && everywhere new_viewb && everywhere oldb && everywhere lowb.

  Lemma sys_okb_ok : (forall x v, q (s_cfg (stays S x v)) = Quorums (length (all_nodes S))) -> sys_okb = true -> sys_ok S.
  Proof.
    intros Hq. unfold sys_okb. rewrite !andb_true_iff. intros ((((((A & B) & C) & D) & E) & F) & Go).
    constructor.
    - split; [apply nodupb_ok, A|apply Nat.leb_le, B].
    - apply Nat.leb_le, C.
    - intros x v Cx Lv. pose proof (everywhere_ok _ D x v Cx Lv) as H. unfold startb in H. cbv zeta in H.
      rewrite !andb_true_iff, !Nat.eqb_eq in H. destruct H as (((((((H1 & H2) & H3) & H4) & H5) & H6) & H7) & H8).
      refine (conj H1 (conj (Hq x v) (conj H2 (conj (view_startb_ok _ H3) (conj H4 (conj (empty_nil _ H5) (conj (empty_nil _ H6) (conj H7 (well_formedb_ok _ _ _ H8))))))))).
    - intros x v Cx Lv. pose proof (everywhere_ok _ Go x v Cx ltac:(lia)) as H. unfold lowb in H. apply orb_prop in H as [H|H]; apply Nat.leb_le in H; [lia|exact H].
    - intros x v Cx Lv V0 En. pose proof (everywhere_ok _ E x v Cx Lv) as H. unfold new_viewb in H. rewrite En in H.
      apply orb_prop in H as [H|H]; [apply Nat.eqb_eq in H; lia|apply empty_nil, H].
    - intros x v a Cx Lv En. pose proof (everywhere_ok _ E x v Cx Lv) as H. unfold new_viewb in H. rewrite En in H.
      rewrite !andb_true_iff, Nat.ltb_lt, Nat.eqb_eq in H. destruct H as (((((H1 & H2) & H3) & H4) & H5) & H6).
      rewrite forallb_forall in H3, H4.
      split; [exact H1|]. split; [apply nodupb_ok, H2|]. split; [intros y Y; exact (yes_true _ (H3 y Y))|].
      split; [|auto]. intros y vc Y Cy. specialize (H4 _ Y). cbn [fst snd] in H4. rewrite (correctb_ok y Cy) in H4. exact (yes_true _ H4).
    - intros x v pp ck Cx Lv X. pose proof (everywhere_ok _ F x v Cx Lv) as H. unfold oldb in H. rewrite forallb_forall in H.
      specialize (H _ X). cbv beta iota in H. destruct (s_new_view (stays S x v)) as [a|]; [|discriminate].
      apply existsb_exists in H as (b & B1 & B2). exists a, b. auto using is_batchb_ok.
  Qed.

  Definition genuineb : bool :=
    everywhere (fun x v => forallb (fun e => match e with
      | EPrePrepare pp y _ => negb (correctb y) || yes (in_dec output_eq (OPrePrepare pp) (sent S y v))
      | EPrepare p y => negb (correctb y) || yes (in_dec output_eq (OPrepare p) (sent S y v))
      | ECommit c y => negb (correctb y) ||
          existsb (fun o => match o with OCommit c' _ => yes (commit_eq c c') | _ => false end) (sent S y v)
      | _ => true
      end) (s_events (stays S x v))).
  Lemma genuineb_ok : genuineb = true -> genuine S.
  Proof.
    intros Hb. pose proof (everywhere_ok _ Hb) as H. cbv beta in H. constructor.
    - intros x y v pp ck Cx Cy Lv X. specialize (H x v Cx Lv). rewrite forallb_forall in H. specialize (H _ X). cbv beta iota in H.
      rewrite (correctb_ok y Cy) in H. exact (yes_true _ H).
    - intros x y v p Cx Cy Lv X. specialize (H x v Cx Lv). rewrite forallb_forall in H. specialize (H _ X). cbv beta iota in H.
      rewrite (correctb_ok y Cy) in H. exact (yes_true _ H).
    - intros x y v c Cx Cy Lv X. specialize (H x v Cx Lv). rewrite forallb_forall in H. specialize (H _ X). cbv beta iota in H.
      rewrite (correctb_ok y Cy) in H. simpl in H. apply existsb_exists in H as (o & O1 & O2).
      destruct o as [| |c' pp|]; try discriminate. apply yes_true in O2 as <-. eauto.
  Qed.

  Definition only_listedb : bool :=
    everywhere (fun x v => match s_new_view (stays S x v) with
      | None => true
      | Some a => forallb (fun e => match e with
          | EPrePrepare pp _ _ => negb (pp_seq pp <=? prev_view_prepare_cert (nv_cp a) (nv_batches a)) || existsb (is_batchb pp) (nv_batches a)
          | _ => true
          end) (s_events (stays S x v))
      end).
  Lemma only_listedb_ok : only_listedb = true -> only_listed S.
  Proof.
    intros Hb. pose proof (everywhere_ok _ Hb) as H. cbv beta in H. intros x v a pp y ck Cx Lv E X L.
    specialize (H x v Cx Lv). rewrite E, forallb_forall in H. specialize (H _ X). cbv beta iota in H.
    apply Nat.leb_le in L. rewrite L in H. simpl in H. apply existsb_exists in H as (b & B1 & B2). exists b. auto using is_batchb_ok.
  Qed.
  Definition last_is_highestb : bool :=
    everywhere (fun x v => match s_new_view (stays S x v) with
      | None => true
      | Some a => forallb (fun b => pp_seq_no b <=? prev_view_prepare_cert (nv_cp a) (nv_batches a)) (nv_batches a)
      end).
  Lemma last_is_highestb_ok : last_is_highestb = true -> last_is_highest S.
  Proof.
    intros Hb. pose proof (everywhere_ok _ Hb) as H. cbv beta in H. intros x v a b Cx Lv E X.
    specialize (H x v Cx Lv). rewrite E, forallb_forall in H. apply Nat.leb_le, H, X.
  Qed.

  (** committed by the nodes [cs] *)
  Definition committedb (b : batch_id) (cs : list node) : bool :=
    (view_no b <? views S) && nodupb cs && forallb (fun x => mem x (all_nodes S)) cs &&
    (commit (Quorums (length (all_nodes S))) <=? length cs) &&
    forallb (fun x => mem x (faulty_nodes S) ||
      existsb (fun o => match o with OCommit _ pp => is_batchb pp b | _ => false end) (sent S x (view_no b))) cs.
  Lemma committedb_ok b cs : committedb b cs = true -> committed S b.
  Proof.
    unfold committedb. rewrite !andb_true_iff. intros ((((A & B) & C) & D) & E). rewrite forallb_forall in C, E.
    split; [apply Nat.ltb_lt, A|]. exists cs.
    split; [split; [apply nodupb_ok, B|intros x X; exact (yes_true _ (C x X))]|]. split; [apply Nat.leb_le, D|].
    intros x X Nf. specialize (E x X). unfold mem, yes in E. destruct (in_dec Nat.eq_dec x (faulty_nodes S)); [contradiction|].
    simpl in E. apply existsb_exists in E as (o & O1 & O2). destruct o as [| |c pp|]; try discriminate. eauto using is_batchb_ok.
  Qed.
End Check.
