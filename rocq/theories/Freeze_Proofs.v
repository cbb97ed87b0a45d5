(** Proofs about the freezing of ledgers. *)
From Coq Require Import List Arith NArith Bool Lia.
From Verif Require Import Base Dict Merkle_Model Ledger_Model Tracker_Model Audit_Model Audit_Spec Audit_Proofs Freeze_Model Freeze_Spec.
Import ListNotations.
Local Open Scope res_scope.

Lemma core_spec lid : is_valid_id lid = true <-> core lid.
Proof.
  unfold is_valid_id, core. cbn [existsb]. rewrite !orb_true_iff, !Nat.eqb_eq. split; [intros [H|[H|[H|[H|H]]]]; try lia; discriminate|].
  intros H. destruct lid as [|[|[|[|n]]]]; try lia; tauto.
Qed.
Lemma core_false lid : is_valid_id lid = false <-> ~ core lid.
Proof. rewrite <- core_spec. destruct (is_valid_id lid); split; congruence. Qed.

Lemma get_map {V W} (f : nat -> V -> W) (d : dict V) k : get k (map (fun '(x, v) => (x, f x v)) d) = option_map (f k) (get k d).
Proof.
  induction d as [|[x v] d IH]; cbn [map get option_map]; [reflexivity|]. destruct (Nat.eqb_spec k x) as [->|N]; [reflexivity|exact IH].
Qed.
Lemma keys_map {V W} (f : nat -> V -> W) (d : dict V) : map fst (map (fun '(x, v) => (x, f x v)) d) = map fst d.
Proof. rewrite map_map. apply map_ext. intros [x v]. reflexivity. Qed.

(** ** Relation between the node before and after some batches *)
Definition later (a b : dict (list bytes) * dict info) : Prop :=
  (forall lid, get lid (fst a) = None -> get lid (fst b) = None) /\
  (forall lid t, get lid (fst a) = Some t -> exists m, get lid (fst b) = Some (t ++ m)) /\
  (forall lid i, get lid (snd a) = Some i -> get lid (snd b) = Some i /\ (~ core lid -> get lid (fst b) = get lid (fst a))).
Lemma later_refl a : later a a.
Proof. split; [auto|]. split; [|auto]. intros lid t H. exists []. rewrite app_nil_r. exact H. Qed.
Lemma later_trans a b c : later a b -> later b c -> later a c.
Proof.
  intros (A1 & A2 & A3) (B1 & B2 & B3). split; [auto|]. split.
  - intros lid t H. destruct (A2 lid t H) as (m & H1). destruct (B2 lid _ H1) as (m' & H2). exists (m ++ m'). rewrite app_assoc. exact H2.
  - intros lid i H. destruct (A3 lid i H) as (H1 & H2). destruct (B3 lid i H1) as (H3 & H4). split; [exact H3|].
    intros N. rewrite (H4 N). apply H2. exact N.
Qed.

Lemma make_list_spec C lids fr fr' : make_list C lids fr = Ok fr' ->
  (forall lid i, get lid fr = Some i -> get lid fr' = Some i) /\
  (forall lid i, get lid fr = None -> get lid fr' = Some i -> In lid lids /\ load C lid = Ok i) /\
  (forall lid, In lid lids -> get lid fr' <> None) /\
  (NoDup (map fst fr) -> NoDup (map fst fr')).
Proof.
  revert fr. induction lids as [|x lids IH]; intros fr E; cbn [make_list] in E.
  - injection E as <-. split; [auto|]. split; [congruence|]. split; [intros lid []|auto].
  - destruct (get x fr) as [i0|] eqn:G.
    + destruct (IH fr E) as (H1 & H2 & H3 & H4). split; [exact H1|]. split; [|split; [|exact H4]].
      * intros lid i N S. destruct (H2 lid i N S) as (A & B). split; [right; exact A|exact B].
      * intros lid [<-|Hi]; [rewrite (H1 x i0 G); discriminate|apply H3; exact Hi].
    + destruct (load C x) as [i0|] eqn:L; [|discriminate]. cbn [bind] in E. destruct (IH _ E) as (H1 & H2 & H3 & H4).
      split; [|split; [|split]].
      * intros lid i S. apply H1. rewrite get_set. destruct (Nat.eqb_spec lid x) as [->|N]; [congruence|exact S].
      * intros lid i N S. destruct (Nat.eqb_spec lid x) as [->|Ne].
        -- assert (get x (set x i0 fr) = Some i0) as G' by (rewrite get_set, Nat.eqb_refl; reflexivity).
           rewrite (H1 x i0 G') in S. injection S as <-. split; [left; reflexivity|exact L].
        -- destruct (H2 lid i) as (A & B); [|exact S|split; [right; exact A|exact B]].
           rewrite get_set. destruct (Nat.eqb_spec lid x); [contradiction|exact N].
      * intros lid [<-|Hi]; [|apply H3; exact Hi]. rewrite (H1 x i0); [discriminate|]. rewrite get_set, Nat.eqb_refl. reflexivity.
      * intros ND. apply H4. apply nodup_set. exact ND.
Qed.

(** who froze a ledger, and why it was let *)
Definition named (C : list adata) (qs : list request) (lid : nat) : Prop :=
  exists lids, In (Freeze true lids) qs /\ In lid lids /\ ~ core lid /\ (forall a C', C = a :: C' -> get lid (a_size a) <> None).

Definition tidy (x : dict (list bytes) * dict info) : Prop := NoDup (map fst (fst x)) /\ NoDup (map fst (snd x)).

Lemma apply_req_spec C b q x x' : apply_req C b q x = Ok x' ->
  later x x' /\ (forall lid, lid <> b -> get lid (fst x') = get lid (fst x)) /\ (tidy x -> tidy x') /\
  (forall lid i, get lid (snd x) = None -> get lid (snd x') = Some i -> b = CONFIG_LEDGER_ID /\ load C lid = Ok i /\ named C [q] lid).
Proof.
  destruct x as [ls fr]. unfold apply_req. destruct (not_frozen b fr) eqn:Nf; cbn [negb].
  2:{ intros E. injection E as <-. split; [apply later_refl|]. split; [auto|]. split; [auto|]. cbn [snd]. congruence. }
  set (add := fun t : bytes => match get b ls with Some txns => set b (txns ++ [t]) ls | None => ls end).
  assert (forall t fr', (forall lid i, get lid fr = Some i -> get lid fr' = Some i) -> later (ls, fr) (add t, fr') /\
    (forall lid, lid <> b -> get lid (add t) = get lid ls) /\ (NoDup (map fst ls) -> NoDup (map fst (add t)))) as HA.
  { intros t fr' Hf. unfold add. destruct (get b ls) as [txns|] eqn:G.
    - split; [|split].
      + split; cbn [fst snd]; [|split].
        * intros lid N. rewrite get_set. destruct (Nat.eqb_spec lid b) as [->|Ne]; [congruence|exact N].
        * intros lid u S. rewrite get_set. destruct (Nat.eqb_spec lid b) as [->|Ne]; [exists [t]; congruence|exists []; rewrite app_nil_r; exact S].
        * intros lid i S. split; [apply Hf; exact S|]. intros Nc. rewrite get_set. destruct (Nat.eqb_spec lid b) as [->|Ne]; [|reflexivity].
          exfalso. unfold not_frozen in Nf. rewrite S in Nf. apply core_false in Nc. rewrite Nc in Nf. discriminate.
      + intros lid Ne. rewrite get_set. destruct (Nat.eqb_spec lid b); [contradiction|reflexivity].
      + intros ND. apply nodup_set. exact ND.
    - split; [|split; auto]. split; cbn [fst snd]; [auto|]. split; [intros lid u S; exists []; rewrite app_nil_r; exact S|]. intros lid i S. split; [apply Hf; exact S|reflexivity]. }
  destruct q as [t|tr lids].
  - intros E. injection E as <-. destruct (HA t fr (fun _ _ H => H)) as (L & K & ND). split; [exact L|]. split; [exact K|].
    split; [intros [X Y]; split; [apply ND; exact X|exact Y]|]. cbn [snd]. congruence.
  - destruct ((b =? CONFIG_LEDGER_ID) && may_freeze C tr lids) eqn:EM.
    2:{ intros E. injection E as <-. split; [apply later_refl|]. split; [auto|]. split; [auto|]. cbn [snd]. congruence. }
    destruct (make_list C lids fr) as [fr'|] eqn:ML; [|discriminate]. cbn [bind]. intros E. injection E as <-.
    destruct (make_list_spec C lids fr fr' ML) as (M1 & M2 & M3 & M4). destruct (HA (freeze_txn lids) fr' M1) as (L & K & ND).
    split; [exact L|]. split; [exact K|]. split; [intros [X Y]; split; [apply ND; exact X|apply M4; exact Y]|].
    apply andb_true_iff in EM. destruct EM as [Eb EM]. apply Nat.eqb_eq in Eb. unfold may_freeze in EM.
    apply andb_true_iff in EM. destruct EM as [EM Es]. apply andb_true_iff in EM. destruct EM as [Ev Et].
    intros lid i N S. cbn [snd] in *. destruct (M2 lid i N S) as (Hi & Ld). split; [exact Eb|]. split; [exact Ld|]. exists lids. destruct tr; [|discriminate].
    split; [left; reflexivity|]. split; [exact Hi|]. split.
    + intros Hc. apply core_spec in Hc. apply negb_true_iff in Ev. assert (existsb is_valid_id lids = true) as X by (apply existsb_exists; exists lid; split; assumption). congruence.
    + intros a C' ->. rewrite forallb_forall in Es. specialize (Es lid Hi). cbn in Es. destruct (get lid (a_size a)); [discriminate|discriminate].
Qed.

Lemma named_app C q qs lid : named C [q] lid \/ named C qs lid -> named C (q :: qs) lid.
Proof.
  intros [(l & A & B)|(l & A & B)]; exists l; split; try exact B.
  - destruct A as [A|[]]. left. exact A.
  - right. exact A.
Qed.

Lemma apply_reqs_spec C b qs x x' : apply_reqs C b qs x = Ok x' ->
  later x x' /\ (forall lid, lid <> b -> get lid (fst x') = get lid (fst x)) /\ (tidy x -> tidy x') /\
  (forall lid i, get lid (snd x) = None -> get lid (snd x') = Some i -> b = CONFIG_LEDGER_ID /\ load C lid = Ok i /\ named C qs lid).
Proof.
  revert x. induction qs as [|q qs IH]; intros x E; cbn [apply_reqs] in E.
  - injection E as <-. split; [apply later_refl|]. split; [auto|]. split; [auto|]. congruence.
  - destruct (apply_req C b q x) as [x1|] eqn:E1; [|discriminate]. cbn [bind] in E.
    destruct (apply_req_spec C b q x x1 E1) as (L1 & K1 & T1 & N1). destruct (IH x1 E) as (L2 & K2 & T2 & N2).
    split; [apply (later_trans x x1 x' L1 L2)|]. split; [intros lid Ne; rewrite (K2 lid Ne); apply K1; exact Ne|].
    split; [intros H; apply T2, T1; exact H|]. intros lid i N S.
    destruct (get lid (snd x1)) as [i1|] eqn:G.
    + destruct L2 as (_ & _ & L3). destruct (L3 lid i1 G) as (G' & _). assert (i1 = i) by congruence. subst i1.
      destruct (N1 lid i N G) as (A & B & D). split; [exact A|]. split; [exact B|]. apply named_app. left. exact D.
    + destruct (N2 lid i G S) as (A & B & D). split; [exact A|]. split; [exact B|]. apply named_app. right. exact D.
Qed.

Section Freeze.
  Variable root : list bytes -> bytes.
  Variable head : nat -> list bytes -> bytes.

  (** ** State roots in audit transactions *)
  Lemma fill_one_state lid v last b a a' k h : fill_ledger_root_hash root lid v last b a = Ok a' -> get k (a_state a') = Some h ->
    get k (a_state a) = Some h \/ k = lid /\ lv_state v = Some h.
  Proof.
    assert (forall a', write_roots root lid v a = Ok a' -> get k (a_state a') = Some h -> get k (a_state a) = Some h \/ k = lid /\ lv_state v = Some h) as W.
    { intros a1. unfold write_roots. destruct (lv_state v) as [h0|]; [|discriminate]. intros E. injection E as <-. cbn [a_state]. rewrite get_set.
      destruct (Nat.eqb_spec k lid) as [->|N]; [intros X; right; split; [reflexivity|exact X]|auto]. }
    unfold fill_ledger_root_hash. destruct (lid =? b_ledger b); [apply W|]. destruct last as [l|].
    - destruct (get lid (a_size l)) as [n0|].
      + destruct (n0 <? lv_size v); [apply W|]. destruct (get lid (a_root l)) as [[r|n]|]; intros E; injection E as <-; cbn; auto.
      + destruct (negb (lv_unc v =? 0)); [apply W|]. destruct (get lid (a_root l)) as [[r|n]|]; intros E; injection E as <-; cbn; auto.
    - destruct (negb (lv_size v =? 0)); [apply W|]. intros E. injection E as <-. auto.
  Qed.
  Lemma fill_ledgers_state ls fr last b a a' k h : fill_ledgers root ls fr last b a = Ok a' -> get k (a_state a') = Some h ->
    get k (a_state a) = Some h \/ exists v, In (k, v) ls /\ lv_state v = Some h.
  Proof.
    revert a. induction ls as [|(lid, v) ls IH]; cbn [fill_ledgers]; intros a E G.
    - injection E as <-. left. exact G.
    - destruct ((lid =? AUDIT_LEDGER_ID) || (if get lid fr then true else false)).
      + destruct (IH a E G) as [X|(w & X & Y)]; [left; exact X|right; exists w; split; [right; exact X|exact Y]].
      + destruct (fill_ledger_root_hash root lid v last b (set_size lid (lv_size v) a)) as [a1|] eqn:F; [|discriminate]. cbn [bind] in E.
        destruct (IH a1 E G) as [X|(w & X & Y)]; [|right; exists w; split; [right; exact X|exact Y]].
        destruct (fill_one_state _ _ _ _ _ _ _ _ F X) as [Y|(-> & Y)]; [left; exact Y|right; exists v; split; [left; reflexivity|exact Y]].
  Qed.
  Lemma fill_frozen_state last fr a k h : get k (a_state (fill_frozen last fr a)) = Some h -> get k fr = None -> get k (a_state a) = Some h.
  Proof.
    unfold fill_frozen. destruct last as [l|]; [|auto]. revert a. induction fr as [|(lid, n) fr IH]; cbn [fold_left get]; intros a G N; [exact G|].
    destruct (Nat.eqb_spec k lid) as [->|Ne]; [discriminate|]. specialize (IH _ G N).
    destruct (get lid (a_root l)) as [[r|m]|]; [exact IH| |exact IH].
    destruct (get lid (a_state l)); cbn in IH; [|exact IH]. rewrite get_set in IH. destruct (Nat.eqb_spec k lid); [contradiction|exact IH].
  Qed.

  (** ** What audit transactions say, newest first *)
  Definition resolves (A : list adata) (lid : nat) (t : list bytes) : Prop :=
    match A with
    | [] => False
    | a :: _ =>
      match get lid (a_root a) with
      | None => t = []
      | Some (Val r) => r = root t
      | Some (Back k) => exists a', nth_error A k = Some a' /\ get lid (a_root a') = Some (Val (root t))
      end
    end.
  Lemma resolves_load A a lid t : resolves (a :: A) lid t -> get lid (a_size a) = Some (length t) ->
    (forall h, get lid (a_state a) = Some h -> h = head lid t) -> exists i, load (a :: A) lid = Ok i /\ describes root head lid t i.
  Proof.
    intros R Sz St. unfold load. rewrite Sz. cbn [resolves] in R.
    assert (forall r, r = Some (root t) \/ r = None /\ t = [] -> describes root head lid t (r, get lid (a_state a), Some (length t))) as D.
    { intros r Hr. split; [reflexivity|]. split; [exact Hr|]. destruct (get lid (a_state a)) as [h|]; [right; rewrite (St h eq_refl); reflexivity|left; reflexivity]. }
    destruct (get lid (a_root a)) as [[r|k]|].
    - eexists. split; [reflexivity|]. apply D. left. congruence.
    - destruct R as (a' & E & G). rewrite E, G. eexists. split; [reflexivity|]. apply D. left. reflexivity.
    - eexists. split; [reflexivity|]. apply D. right. split; [reflexivity|exact R].
  Qed.
  Lemma resolves_next a l A lid t : resolves (l :: A) lid t -> get lid (a_root a) = repeated lid l -> resolves (a :: l :: A) lid t.
  Proof.
    intros R E. cbn [resolves] in *. rewrite E. unfold repeated. destruct (get lid (a_root l)) as [[r|k]|] eqn:G; cbn [option_map next_fld].
    - exists l. split; [reflexivity|]. rewrite G, R. reflexivity.
    - destruct R as (a' & X & Y). exists a'. rewrite Nat.add_1_r. split; [exact X|exact Y].
    - exact R.
  Qed.

  (** ** Invariant *)
  Definition parts (x : snap) : dict (list bytes) * dict info := (ledgers x, frozen x).
  Definition parts_of (g : dict (list bytes)) (l : list snap) := (ledgers_of g l, frozen_of l).

  Definition sound (x : snap) (l : list snap) : Prop :=
    (forall lid t, lid <> AUDIT_LEDGER_ID -> get lid (ledgers x) = Some t -> get lid (frozen x) = None ->
       get lid (a_size (audit x)) = Some (length t) /\ resolves (map audit (x :: l)) lid t /\
       (forall h, get lid (a_state (audit x)) = Some h -> h = head lid t)) /\
    (forall lid, get lid (a_size (audit x)) <> None -> get lid (ledgers x) <> None \/ get lid (frozen x) <> None).
  Fixpoint chain (g : dict (list bytes)) (l : list snap) : Prop :=
    match l with
    | [] => True
    | x :: l' => later (parts_of g l') (parts x) /\ tidy (parts x) /\ sound x l' /\ chain g l'
    end.
  Definition Inv (s : node) : Prop := tidy (genesis s, []) /\ pending s <= length (stack s) /\ chain (genesis s) (stack s).

  Lemma chain_later g l n : chain g l -> later (parts_of g (skipn n l)) (parts_of g l).
  Proof.
    revert n. induction l as [|x l IH]; intros n H; [rewrite skipn_nil; apply later_refl|]. destruct n as [|n]; [apply later_refl|].
    destruct H as (A & _ & _ & B). apply (later_trans _ (parts_of g l)); [apply IH; exact B|exact A].
  Qed.
  Lemma chain_skipn g l n : chain g l -> chain g (skipn n l).
  Proof. revert n. induction l as [|x l IH]; intros n H; [rewrite skipn_nil; exact H|]. destruct n; [exact H|]. apply IH. apply H. Qed.
  Lemma chain_tidy g l : tidy (g, []) -> chain g l -> tidy (parts_of g l).
  Proof. destruct l as [|x l]; intros T H; [exact T|apply H]. Qed.

  Lemma make_audit_spec s ls b a : Inv s -> NoDup (map fst ls) -> make_audit root head s ls b = Ok a ->
    let last := option_map audit (hd_error (stack s)) in
    (forall lid t, lid <> AUDIT_LEDGER_ID -> get lid ls = Some t -> get lid (frozen_of (committed s)) = None ->
      get lid (a_size a) = Some (length t) /\
      (exists n, get lid (a_root a) = root_rule root lid (mkLV t n (Some (head lid t))) last (on_ledger b)) /\
      (forall h, get lid (a_state a) = Some h -> h = head lid t)) /\
    (forall lid i, get lid (frozen_of (committed s)) = Some i ->
      match option_map (fun l => get lid (a_root l)) last with
      | Some (Some (Back k)) => get lid (a_root a) = Some (Back (k + 1)) /\ get lid (a_size a) = Some (match seq_no i with Some n => n | None => 0 end)
      | _ => get lid (a_root a) = None /\ get lid (a_size a) = None
      end) /\
    (forall lid, get lid (a_size a) <> None -> get lid ls <> None \/ get lid (frozen_of (committed s)) <> None).
  Proof.
    intros (Tg & Lp & Ch) ND E. unfold make_audit in E. cbv zeta in *. set (last := option_map audit (hd_error (stack s))) in *.
    unfold view in E. cbn [e_ledgers e_frozen] in E.
    set (L := map _ ls) in E. set (F := map _ (frozen_of (committed s))) in E.
    destruct (fill_ledgers root L F last (on_ledger b) (mkA 0 0 [] [] [] None None 0)) as [a1|] eqn:E1; [|discriminate]. cbn [bind] in E. injection E as <-.
    set (f := fun (lid : nat) (txns : list bytes) => mkLV txns (length txns - length (get_or lid [] (ledgers_of (genesis s) (committed s)))) (Some (head lid txns))).
    set (gq := fun (lid : nat) (i : info) => match seq_no i with Some n => n | None => 0 end).
    assert (forall k, get k L = option_map (f k) (get k ls)) as GL by (intros k; exact (get_map f ls k)).
    assert (forall k, get k F = option_map (gq k) (get k (frozen_of (committed s)))) as GF by (intros k; exact (get_map gq (frozen_of (committed s)) k)).
    assert (NoDup (map fst L)) as NL by (unfold L; change (NoDup (map fst (map (fun '(x, v) => (x, f x v)) ls))); rewrite keys_map; exact ND).
    assert (NoDup (map fst F)) as NF.
    { unfold F. change (NoDup (map fst (map (fun '(x, v) => (x, gq x v)) (frozen_of (committed s))))). rewrite keys_map.
      apply (chain_tidy (genesis s) (committed s) Tg). apply chain_skipn. exact Ch. }
    destruct (fill_ledgers_get root L F last (on_ledger b) NL _ _ E1) as (K & _).
    destruct (fill_frozen_get last F NF a1) as (Q & _).
    split; [|split].
    - intros lid t Na Gt Nf. destruct (K lid) as (K1 & K2). destruct (Q lid) as (Q1 & Q2).
      assert (get lid F = None) as GN by (rewrite GF, Nf; reflexivity). rewrite GN in Q1, Q2.
      assert (skipped F lid = false) as SK by (unfold skipped; rewrite GN; destruct (Nat.eqb_spec lid AUDIT_LEDGER_ID); [contradiction|reflexivity]).
      rewrite GL, Gt, SK in K1, K2. cbn [option_map] in K1, K2. split; [|split].
      + rewrite Q2. destruct last; rewrite K1; reflexivity.
      + exists (length t - length (get_or lid [] (ledgers_of (genesis s) (committed s)))). cbn [a_root get] in K2.
        change (mkLV t _ _) with (f lid t). transitivity (get lid (a_root a1)); [rewrite Q1; destruct last; reflexivity|].
        rewrite K2. destruct (root_rule root lid (f lid t) last (on_ledger b)); reflexivity.
      + intros h Gh. apply fill_frozen_state in Gh; [|exact GN].
        destruct (fill_ledgers_state L F last (on_ledger b) _ _ lid h E1 Gh) as [X|(v & X & Y)]; [discriminate|].
        apply (in_get lid L v NL) in X. rewrite GL, Gt in X. cbn [option_map] in X. injection X as <-. cbn in Y. congruence.
    - intros lid i Gi. destruct (K lid) as (K1 & K2). destruct (Q lid) as (Q1 & Q2).
      assert (get lid F = Some (gq lid i)) as GN by (rewrite GF, Gi; reflexivity). rewrite GN in Q1, Q2.
      assert (skipped F lid = true) as SK by (unfold skipped; rewrite GN; apply orb_true_r). rewrite SK in K1, K2. cbn [a_size a_root get] in K1, K2.
      assert (get lid (a_size a1) = None) as X1 by (rewrite K1; destruct (get lid L); reflexivity).
      assert (get lid (a_root a1) = None) as X2 by (rewrite K2; destruct (get lid L); reflexivity).
      rewrite X1 in Q2. rewrite X2 in Q1. destruct last as [l|]; cbn [option_map]; [|split; assumption].
      destruct (get lid (a_root l)) as [[r|k]|]; split; assumption.
    - intros lid Sz. destruct (get lid (frozen_of (committed s))) as [i|] eqn:Gi; [right; discriminate|left].
      destruct (K lid) as (K1 & _). destruct (Q lid) as (_ & Q2).
      assert (get lid F = None) as GN by (rewrite GF, Gi; reflexivity). rewrite GN in Q2.
      assert (get lid (a_size a1) <> None) as X by (destruct last; congruence).
      rewrite K1, GL in X. cbn [a_size get] in X. destruct (get lid ls); [discriminate|cbn in X; congruence].
  Qed.

  Lemma sound_step s ls fr b a : Inv s -> later (parts_of (genesis s) (stack s)) (ls, fr) -> NoDup (map fst ls) ->
    make_audit root head s ls b = Ok a -> sound (mkSnap ls fr a) (stack s).
  Proof.
    intros I L ND E. pose proof (make_audit_spec s ls b a I ND E) as (M1 & M2 & M3). cbv zeta in *.
    destruct I as (Tg & Lp & Ch). pose proof (chain_later (genesis s) (stack s) (pending s) Ch) as LC. fold (committed s) in LC.
    assert (forall lid, get lid fr = None -> get lid (frozen_of (stack s)) = None /\ get lid (frozen_of (committed s)) = None) as NF.
    { intros lid N. destruct L as (_ & _ & L3). destruct LC as (_ & _ & C3). cbn [parts_of fst snd] in *.
      assert (get lid (frozen_of (stack s)) = None) as X.
      { destruct (get lid (frozen_of (stack s))) as [i|] eqn:G; [|reflexivity]. destruct (L3 lid i G). congruence. }
      split; [exact X|]. destruct (get lid (frozen_of (committed s))) as [i|] eqn:G; [|reflexivity]. destruct (C3 lid i G). congruence. }
    split; cbn [ledgers frozen audit].
    - intros lid t Na Gt Nf. destruct (NF lid Nf) as (N1 & N2). destruct (M1 lid t Na Gt N2) as (A & (n & B) & D). split; [exact A|]. split; [|exact D].
      destruct (stack s) as [|x l] eqn:Es; cbn [map hd_error option_map] in *.
      + cbn [map resolves audit]. rewrite B. unfold root_rule. cbn [lv_txns lv_size]. destruct (lid =? b_ledger (on_ledger b)); [reflexivity|].
        unfold lv_size. cbn [lv_txns]. destruct t; cbn [length Nat.eqb negb]; reflexivity.
      + assert (exists t0, get lid (ledgers x) = Some t0) as (t0 & G0).
        { destruct (get lid (ledgers x)) as [t0|] eqn:G; [exists t0; reflexivity|]. destruct L as (L1 & _). cbn [parts_of fst ledgers_of] in L1. rewrite (L1 lid G) in Gt. discriminate. }
        destruct Ch as (_ & _ & (S1 & _) & _). cbn [frozen_of] in N1. destruct (S1 lid t0 Na G0 N1) as (Sz & R & _).
        unfold root_rule in B. cbn [lv_txns b_ledger on_ledger] in B. destruct (lid =? b) eqn:Eb; [cbn [map resolves audit]; rewrite B; reflexivity|].
        rewrite Sz in B. unfold lv_size in B. cbn [lv_txns] in B. destruct (Nat.ltb_spec (length t0) (length t)) as [Lt|Le]; [cbn [map resolves audit]; rewrite B; reflexivity|].
        assert (t = t0) as ->.
        { destruct L as (_ & L2 & _). cbn [parts_of fst ledgers_of] in L2. destruct (L2 lid t0 G0) as (m & G). rewrite G in Gt. injection Gt as <-.
          rewrite app_length in Le. destruct m; [apply app_nil_r|cbn in Le; lia]. }
        apply resolves_next; [exact R|exact B].
    - intros lid Sz. destruct (M3 lid Sz) as [X|X]; [left; exact X|right]. intros N. destruct (NF lid N) as (_ & Y). contradiction.
  Qed.

  Lemma inv_step s o s' : Inv s -> step root head s o = Ok s' -> Inv s' /\ genesis s' = genesis s.
  Proof.
    intros I E. pose proof I as (Tg & Lp & Ch). destruct o as [b qs| |]; cbn [step] in E.
    - destruct (apply_reqs _ b qs _) as [[ls fr]|] eqn:Ea; [|discriminate]. cbn [bind] in E.
      destruct (make_audit root head s ls b) as [a|] eqn:Em; [|discriminate]. cbn [bind] in E. injection E as <-.
      destruct (apply_reqs_spec _ _ _ _ _ Ea) as (L & _ & T & _).
      assert (tidy (ls, fr)) as T' by (apply T; apply (chain_tidy (genesis s) (stack s) Tg Ch)).
      split; [|reflexivity]. unfold Inv. cbn [genesis stack pending length chain]. split; [exact Tg|]. split; [lia|].
      split; [exact L|]. split; [exact T'|]. split; [|exact Ch]. apply (sound_step s ls fr b a I L (proj1 T') Em).
    - destruct (pending s) as [|n] eqn:Ep; [discriminate|]. injection E as <-. split; [|reflexivity]. split; [exact Tg|]. cbn. split; [lia|exact Ch].
    - destruct (pending s) as [|n] eqn:Ep; [discriminate|]. destruct (stack s) as [|x l] eqn:Es; [discriminate|]. injection E as <-.
      split; [|reflexivity]. split; [exact Tg|]. cbn in *. split; [lia|apply Ch].
  Qed.
  Lemma inv_run os s s' : Inv s -> run root head s os = Ok s' -> Inv s' /\ genesis s' = genesis s.
  Proof.
    revert s. induction os as [|o os IH]; intros s I E; cbn [run] in E; [injection E as <-; auto|].
    destruct (step root head s o) as [s1|] eqn:E1; [|discriminate]. cbn [bind] in E. destruct (inv_step s o s1 I E1) as (I1 & G1).
    destruct (IH s1 I1 E) as (I2 & G2). split; [exact I2|congruence].
  Qed.
  Lemma inv_reach g s : proper g -> reach root head g s -> Inv s /\ genesis s = g.
  Proof.
    intros P (os & E). apply (inv_run os (start g) s); [|exact E]. split; [|split; [cbn; lia|exact Logic.I]]. split; [exact P|constructor].
  Qed.

  (** ** Theorems *)
  Lemma new_frozen g s b qs s' lid i : proper g -> reach root head g s -> step root head s (Apply b qs) = Ok s' ->
    get lid (frozen_of (stack s)) = None -> get lid (frozen_of (stack s')) = Some i ->
    b = CONFIG_LEDGER_ID /\ ~ core lid /\
    (exists lids, In (Freeze true lids) qs /\ In lid lids) /\
    exists x l t, committed s = x :: l /\ get lid (ledgers x) = Some t /\ describes root head lid t i.
  Proof.
    intros P R E N S. destruct (inv_reach g s P R) as ((Tg & Lp & Ch) & Eg). cbn [step] in E.
    destruct (apply_reqs _ b qs _) as [[ls fr]|] eqn:Ea; [|discriminate]. cbn [bind] in E.
    destruct (make_audit root head s ls b) as [a|] eqn:Em; [|discriminate]. cbn [bind] in E. injection E as <-. cbn [stack frozen_of frozen] in S.
    destruct (apply_reqs_spec _ _ _ _ _ Ea) as (_ & _ & _ & Nw). destruct (Nw lid i N S) as (A & Ld & (lids & Q1 & Q2 & Q3 & Q4)).
    split; [exact A|]. split; [exact Q3|]. split; [exists lids; split; assumption|].
    pose proof (chain_later (genesis s) (stack s) (pending s) Ch) as LC. pose proof (chain_skipn (genesis s) (stack s) (pending s) Ch) as CC.
    fold (committed s) in LC, CC. destruct (committed s) as [|x l]; [discriminate|].
    assert (get lid (frozen x) = None) as Nx.
    { destruct LC as (_ & _ & L3). cbn [parts_of snd frozen_of] in L3. destruct (get lid (frozen x)) as [j|] eqn:G; [|reflexivity].
      destruct (L3 lid j G). congruence. }
    assert (lid <> AUDIT_LEDGER_ID) as Na by (intros ->; apply Q3; unfold core, AUDIT_LEDGER_ID; lia).
    destruct CC as (_ & _ & (S1 & S2) & _). specialize (Q4 (audit x) (map audit l) eq_refl).
    destruct (S2 lid Q4) as [Gl|Gf]; [|contradiction]. destruct (get lid (ledgers x)) as [t|] eqn:Gt; [|contradiction].
    exists x, l, t. split; [reflexivity|]. split; [exact Gt|].
    destruct (S1 lid t Na Gt Nx) as (Sz & Rs & St). cbn [map] in Ld, Rs. destruct (resolves_load (map audit l) (audit x) lid t Rs Sz St) as (i' & Ld' & D).
    assert (i' = i) by congruence. subst i'. exact D.
  Qed.

  Lemma stays g s i j x y lid r : proper g -> reach root head g s -> i <= j -> nth_error (stack s) i = Some y -> nth_error (stack s) j = Some x ->
    get lid (frozen x) = Some r -> get lid (frozen y) = Some r /\ (~ core lid -> get lid (ledgers y) = get lid (ledgers x)).
  Proof.
    intros P R Hij Hy Hx G. destruct (inv_reach g s P R) as ((_ & _ & Ch) & _).
    assert (forall (l : list snap) n z, nth_error l n = Some z -> exists l', skipn n l = z :: l') as HN.
    { intros l n. revert l. induction n as [|n IH]; intros [|z l] w Hw; cbn in *; try discriminate; [injection Hw as <-; eexists; reflexivity|apply IH; exact Hw]. }
    destruct (HN _ _ _ Hy) as (ly & Ey). destruct (HN _ _ _ Hx) as (lx & Ex).
    pose proof (chain_later (genesis s) (skipn i (stack s)) (j - i) (chain_skipn _ _ i Ch)) as L.
    rewrite skipn_skipn in L. replace (i + (j - i)) with j in L by lia. rewrite Ey, Ex in L. destruct L as (_ & _ & L3). apply (L3 lid r G).
  Qed.

  (** a step that does not take back leaves what is frozen *)
  Lemma keeps g s b qs s' lid r : proper g -> reach root head g s -> step root head s (Apply b qs) = Ok s' ->
    get lid (frozen_of (stack s)) = Some r ->
    get lid (frozen_of (stack s')) = Some r /\ (~ core lid -> get lid (ledgers_of (genesis s') (stack s')) = get lid (ledgers_of (genesis s) (stack s))).
  Proof.
    intros P R E G. cbn [step] in E. destruct (apply_reqs _ b qs _) as [[ls fr]|] eqn:Ea; [|discriminate]. cbn [bind] in E.
    destruct (make_audit root head s ls b) as [a|] eqn:Em; [|discriminate]. cbn [bind] in E. injection E as <-. cbn [stack frozen_of frozen ledgers_of ledgers].
    destruct (apply_reqs_spec _ _ _ _ _ Ea) as ((_ & _ & L3) & _). apply (L3 lid r G).
  Qed.

  (** ** Nothing raises once a batch is committed *)
  Lemma make_list_ok C lids fr : (forall lid, In lid lids -> get lid fr = None -> exists i, load C lid = Ok i) -> exists fr', make_list C lids fr = Ok fr'.
  Proof.
    revert fr. induction lids as [|x lids IH]; intros fr H; cbn [make_list]; [eauto|]. destruct (get x fr) as [i0|] eqn:G.
    - apply IH. intros lid Hi. apply H. right. exact Hi.
    - destruct (H x (or_introl eq_refl) G) as (i & ->). cbn [bind]. apply IH. intros lid Hi N. rewrite get_set in N.
      destruct (lid =? x); [discriminate|]. apply H; [right; exact Hi|exact N].
  Qed.
  Definition loadable (C : list adata) (fr : dict info) : Prop :=
    forall lid a C', C = a :: C' -> ~ core lid -> get lid (a_size a) <> None -> get lid fr = None -> exists i, load C lid = Ok i.
  Lemma apply_req_ok C b q x : C <> [] -> loadable C (snd x) -> exists x', apply_req C b q x = Ok x'.
  Proof.
    intros NC HL. destruct x as [ls fr]. cbn [snd] in HL. unfold apply_req. destruct (not_frozen b fr); cbn [negb]; [|eauto]. destruct q as [t|tr lids]; [eauto|].
    destruct ((b =? CONFIG_LEDGER_ID) && may_freeze C tr lids) eqn:EM; [|eauto]. apply andb_true_iff in EM. destruct EM as [_ EM].
    unfold may_freeze in EM. apply andb_true_iff in EM. destruct EM as [EM Es]. apply andb_true_iff in EM. destruct EM as [Ev _].
    destruct C as [|a C']; [contradiction|]. destruct (make_list_ok (a :: C') lids fr) as (fr' & ->); [|cbn [bind]; eauto].
    intros lid Hi N. apply (HL lid a C' eq_refl); [| |exact N].
    - intros Hc. apply core_spec in Hc. apply negb_true_iff in Ev. assert (existsb is_valid_id lids = true) as X by (apply existsb_exists; exists lid; split; assumption). congruence.
    - rewrite forallb_forall in Es. specialize (Es lid Hi). cbn in Es. destruct (get lid (a_size a)); discriminate.
  Qed.
  Lemma apply_reqs_ok C b qs x : C <> [] -> loadable C (snd x) -> exists x', apply_reqs C b qs x = Ok x'.
  Proof.
    intros NC. revert x. induction qs as [|q qs IH]; intros x HL; cbn [apply_reqs]; [eauto|].
    destruct (apply_req_ok C b q x NC HL) as (x1 & E1). rewrite E1. cbn [bind]. apply IH.
    destruct (apply_req_spec C b q x x1 E1) as ((_ & _ & L3) & _). intros lid a C' EC Nc Sz N. apply (HL lid a C' EC Nc Sz).
    destruct (get lid (snd x)) as [i|] eqn:G; [|reflexivity]. destruct (L3 lid i G). congruence.
  Qed.
  Lemma make_audit_ok s ls b : exists a, make_audit root head s ls b = Ok a.
  Proof.
    unfold make_audit. cbv zeta. destruct (fill_ledgers_ok root (e_ledgers (view head s ls)) (e_frozen (view head s ls)) (option_map audit (hd_error (stack s))) (on_ledger b)) with (a := mkA 0 0 [] [] [] None None 0) as (a & ->).
    - unfold view. cbn [e_ledgers]. intros lid v H _. apply in_map_iff in H. destruct H as ((k & t) & E & _). injection E as <- <-. discriminate.
    - cbn [bind]. eauto.
  Qed.
  Lemma no_error g s b qs : proper g -> reach root head g s -> committed s <> [] -> exists s', step root head s (Apply b qs) = Ok s'.
  Proof.
    intros P R NC. destruct (inv_reach g s P R) as ((Tg & Lp & Ch) & Eg). cbn [step].
    destruct (apply_reqs_ok (map audit (committed s)) b qs (ledgers_of (genesis s) (stack s), frozen_of (stack s))) as ((ls & fr) & ->).
    - destruct (committed s); [contradiction|discriminate].
    - cbn [snd]. intros lid a C' EC Nc Sz N.
      pose proof (chain_later (genesis s) (stack s) (pending s) Ch) as LC. pose proof (chain_skipn (genesis s) (stack s) (pending s) Ch) as CC.
      fold (committed s) in LC, CC. destruct (committed s) as [|x l]; [contradiction|]. cbn [map] in EC |- *. injection EC as <- <-.
      assert (get lid (frozen x) = None) as Nx.
      { destruct LC as (_ & _ & L3). cbn [parts_of snd frozen_of] in L3. destruct (get lid (frozen x)) as [j|] eqn:G; [|reflexivity]. destruct (L3 lid j G). congruence. }
      assert (lid <> AUDIT_LEDGER_ID) as Na by (intros ->; apply Nc; unfold core, AUDIT_LEDGER_ID; lia).
      destruct CC as (_ & _ & (S1 & S2) & _). destruct (S2 lid Sz) as [Gl|Gf]; [|contradiction]. destruct (get lid (ledgers x)) as [t|] eqn:Gt; [|contradiction].
      destruct (S1 lid t Na Gt Nx) as (Sz' & Rs & St). destruct (resolves_load (map audit l) (audit x) lid t Rs Sz' St) as (i' & Ld' & _). exists i'. exact Ld'.
    - cbn [bind]. destruct (make_audit_ok s ls b) as (a & ->). cbn [bind]. eauto.
  Qed.

  (** a request that is let through freezes what it names *)
  Lemma frozen_now g s tr lids s' : proper g -> reach root head g s -> step root head s (Apply CONFIG_LEDGER_ID [Freeze tr lids]) = Ok s' ->
    may_freeze (map audit (committed s)) tr lids = true -> forall lid, In lid lids -> get lid (frozen_of (stack s')) <> None.
  Proof.
    intros P R E M lid Hi. cbn [step apply_reqs apply_req not_frozen CONFIG_LEDGER_ID is_valid_id existsb Nat.eqb orb negb andb] in E. rewrite M in E.
    destruct (make_list (map audit (committed s)) lids (frozen_of (stack s))) as [fr'|] eqn:ML; [|discriminate]. cbn [bind] in E.
    match type of E with context [make_audit root head s ?l ?b] => destruct (make_audit root head s l b) as [a|] end; [|discriminate].
    cbn [bind] in E. injection E as <-. cbn [stack frozen_of frozen]. apply (make_list_spec _ _ _ _ ML). exact Hi.
  Qed.

  (** ** One batch at a time *)
  Definition settled (lid : nat) (t : list bytes) (r : option bytes) (n : option nat) (x : snap) (l : list snap) : Prop :=
    n = Some (length t) /\
    ((r = None /\ t = [] /\ get lid (a_root (audit x)) = None) \/
     (r = Some (root t) /\ get lid (a_size (audit x)) = Some (length t) /\ resolves (map audit (x :: l)) lid t /\
      exists k, get lid (a_root (audit x)) = Some (Back k))).
  Definition Inv2 (s : node) : Prop :=
    pending s = 0 /\
    match stack s with
    | [] => True
    | x :: l => forall lid r st n, get lid (frozen x) = Some (r, st, n) ->
        ~ core lid /\ exists t, get lid (ledgers x) = Some t /\ settled lid t r n x l
    end.

  Lemma round g s b qs s1 s2 : proper g -> reach root head g s -> Inv2 s -> step root head s (Apply b qs) = Ok s1 -> step root head s1 Commit = Ok s2 -> Inv2 s2.
  Proof.
    intros P R (Ep & I2) E1 E2. pose proof (inv_reach g s P R) as (I & Eg). pose proof I as (Tg & Lp & Ch).
    assert (committed s = stack s) as Ec by (unfold committed; rewrite Ep; reflexivity).
    cbn [step] in E1. rewrite Ec in E1.
    destruct (apply_reqs _ b qs _) as [[ls fr]|] eqn:Ea; [|discriminate]. cbn [bind] in E1.
    destruct (make_audit root head s ls b) as [a|] eqn:Em; [|discriminate]. cbn [bind] in E1. injection E1 as <-.
    cbn [step pending] in E2. injection E2 as <-. unfold Inv2. cbn [pending stack]. split; [exact Ep|].
    destruct (apply_reqs_spec _ _ _ _ _ Ea) as (L & K & T & Nw).
    assert (NoDup (map fst ls)) as ND by (apply (T (chain_tidy (genesis s) (stack s) Tg Ch))).
    pose proof (make_audit_spec s ls b a I ND Em) as (M1 & M2 & _). cbv zeta in M1, M2. rewrite Ec in M1, M2.
    intros lid r st n G. cbn [frozen ledgers audit] in *.
    destruct (get lid (frozen_of (stack s))) as [i|] eqn:Gs.
    - destruct L as (_ & _ & L3). cbn [snd fst] in L3. destruct (L3 lid i Gs) as (G' & Gl). assert (i = (r, st, n)) by congruence. subst i.
      destruct (stack s) as [|x l] eqn:Es; [discriminate|]. cbn [frozen_of] in Gs. destruct (I2 lid r st n Gs) as (Nc & t & Gt & (En & D)).
      specialize (Gl Nc). cbn [ledgers_of] in Gl. split; [exact Nc|]. exists t. split; [congruence|]. split; [exact En|].
      specialize (M2 lid (r, st, n) Gs). cbn [hd_error option_map seq_no snd] in M2. destruct D as [(Hr & Ht & Hn)|(Hr & Hs & Hres & k & Hk)].
      + left. split; [exact Hr|]. split; [exact Ht|]. rewrite Hn in M2. apply M2.
      + right. rewrite Hk in M2. destruct M2 as (M2 & M3). split; [exact Hr|]. cbn [audit]. rewrite En in M3. split; [exact M3|].
        split; [|exists (k + 1); exact M2]. cbn [map] in Hres |- *. apply resolves_next; [exact Hres|]. unfold repeated. rewrite Hk. exact M2.
    - destruct (Nw lid (r, st, n) Gs G) as (Eb & Ld & (lids & Q1 & Q2 & Q3 & Q4)). split; [exact Q3|].
      destruct (stack s) as [|x l] eqn:Es; [discriminate|]. cbn [frozen_of] in Gs. specialize (Q4 (audit x) (map audit l) eq_refl).
      assert (lid <> AUDIT_LEDGER_ID) as Na by (intros ->; apply Q3; unfold core, AUDIT_LEDGER_ID; lia).
      assert (lid <> b) as Nb by (intros ->; apply Q3; rewrite Eb; unfold core, CONFIG_LEDGER_ID; lia).
      destruct Ch as (_ & _ & (S1 & S2) & _). destruct (S2 lid Q4) as [Gl|Gf]; [|contradiction]. destruct (get lid (ledgers x)) as [t|] eqn:Gt; [|contradiction].
      destruct (S1 lid t Na Gt Gs) as (Sz & Rs & St).
      assert (get lid ls = Some t) as Gls by (rewrite <- Gt; apply (K lid Nb)).
      destruct (M1 lid t Na Gls Gs) as (A1 & (m & A2) & _). exists t. split; [exact Gls|].
      unfold root_rule in A2. cbn [b_ledger on_ledger lv_txns hd_error option_map] in A2.
      destruct (Nat.eqb_spec lid b) as [|_]; [contradiction|]. rewrite Sz in A2. unfold lv_size in A2. cbn [lv_txns] in A2. rewrite Nat.ltb_irrefl in A2.
      cbn [map] in Ld, Rs. unfold load in Ld. rewrite Sz in Ld. unfold settled. cbn [audit map].
      destruct (get lid (a_root (audit x))) as [[r0|k]|] eqn:Gr.
      + injection Ld as <- <- <-. split; [reflexivity|]. right. cbn [resolves] in Rs. rewrite Gr in Rs. split; [congruence|]. split; [exact A1|].
        split; [|exists 1; rewrite A2; unfold repeated; rewrite Gr; reflexivity]. apply resolves_next; [|exact A2]. cbn [resolves]. rewrite Gr. exact Rs.
      + pose proof Rs as Rs'. cbn [resolves] in Rs. rewrite Gr in Rs. destruct Rs as (a' & N' & Gv). rewrite N', Gv in Ld. injection Ld as <- <- <-. split; [reflexivity|]. right.
        split; [reflexivity|]. split; [exact A1|]. split; [|exists (k + 1); rewrite A2; unfold repeated; rewrite Gr; reflexivity]. apply resolves_next; [exact Rs'|exact A2].
      + injection Ld as <- <- <-. split; [reflexivity|]. left. cbn [resolves] in Rs. rewrite Gr in Rs. split; [reflexivity|]. split; [exact Rs|].
        rewrite A2. unfold repeated. rewrite Gr. reflexivity.
  Qed.

  Lemma rounds g bs s s' : proper g -> reach root head g s -> Inv2 s -> run root head s (one_by_one bs) = Ok s' -> Inv2 s' /\ reach root head g s'.
  Proof.
    intros P. revert s. induction bs as [|b bs IH]; intros s R I E.
    - cbn in E. injection E as <-. split; assumption.
    - change (one_by_one (b :: bs)) with ([Apply (fst b) (snd b); Commit] ++ one_by_one bs) in E. cbn [app run] in E.
      destruct (step root head s (Apply (fst b) (snd b))) as [s1|] eqn:E1; [|discriminate]. cbn [bind] in E.
      destruct (step root head s1 Commit) as [s2|] eqn:E2; [|discriminate]. cbn [bind] in E.
      assert (reach root head g s2) as R2.
      { destruct R as (os & Eo). exists (os ++ [Apply (fst b) (snd b); Commit]). clear -Eo E1 E2. revert Eo. generalize (start g). induction os as [|o os IHo]; intros z Eo; cbn [run app] in *.
        - injection Eo as ->. rewrite E1. cbn [bind]. rewrite E2. reflexivity.
        - destruct (step root head z o) as [z1|]; [|discriminate]. cbn [bind] in *. apply IHo. exact Eo. }
      apply (IH s2 R2); [|exact E]. apply (round g s (fst b) (snd b) s1 s2 P R I E1 E2).
  Qed.

  Lemma replay_get C fz fr fr' lid : replay C fz fr = Ok fr' ->
    (forall i, get lid fr = Some i -> get lid fr' = Some i) /\
    (get lid fr = None -> (exists lids, In lids fz /\ In lid lids) -> exists i, load C lid = Ok i /\ get lid fr' = Some i).
  Proof.
    revert fr. induction fz as [|lids fz IH]; intros fr E; cbn [replay] in E.
    - injection E as <-. split; [auto|]. intros _ (lids & [] & _).
    - destruct (make_list C lids fr) as [fr1|] eqn:ML; [|discriminate]. cbn [bind] in E. destruct (make_list_spec C lids fr fr1 ML) as (M1 & M2 & M3 & _).
      destruct (IH fr1 E) as (I1 & I2). split; [intros i G; apply I1, M1; exact G|].
      intros N (l & Hl & Hi). destruct (get lid fr1) as [i|] eqn:G1.
      + destruct (M2 lid i N G1) as (_ & Ld). exists i. split; [exact Ld|]. apply I1. reflexivity.
      + destruct Hl as [<-|Hl]; [exfalso; apply (M3 lid Hi); exact G1|]. apply I2; [reflexivity|]. exists l. split; assumption.
  Qed.
  Lemma replay_ok C fz fr : (forall lids lid, In lids fz -> In lid lids -> exists i, load C lid = Ok i) -> exists fr', replay C fz fr = Ok fr'.
  Proof.
    revert fr. induction fz as [|lids fz IH]; intros fr H; cbn [replay]; [eauto|].
    destruct (make_list_ok C lids fr) as (fr1 & ->); [intros lid Hi _; apply (H lids lid); [left; reflexivity|exact Hi]|]. cbn [bind].
    apply IH. intros l lid Hl. apply H. right. exact Hl.
  Qed.

  Lemma replayed g bs s fz : proper g -> run root head (start g) (one_by_one bs) = Ok s ->
    (forall lids lid, In lids fz -> In lid lids -> get lid (frozen_of (stack s)) <> None) ->
    exists fr', replay (map audit (stack s)) fz [] = Ok fr' /\
      forall lid r st n, get lid (frozen_of (stack s)) = Some (Some r, st, n) -> (exists lids, In lids fz /\ In lid lids) ->
        exists st', get lid fr' = Some (Some r, st', n).
  Proof.
    intros P E H. destruct (rounds g bs (start g) s P) as ((_ & I2) & _); [exists []; reflexivity|split; [reflexivity|exact Logic.I]|exact E|].
    assert (forall lid r st n, get lid (frozen_of (stack s)) = Some (r, st, n) -> exists i, load (map audit (stack s)) lid = Ok i /\
      (r <> None -> exists st', i = (r, st', n))) as HL.
    { intros lid r st n G. destruct (stack s) as [|x l]; [discriminate|]. cbn [frozen_of] in G. destruct (I2 lid r st n G) as (_ & t & Gt & (En & D)).
      cbn [map]. unfold load. destruct D as [(Hr & Ht & Hn)|(Hr & Hs & Hres & k & Hk)].
      - rewrite Hn. eexists. split; [reflexivity|]. congruence.
      - cbn [map resolves] in Hres. rewrite Hk in Hres |- *. destruct Hres as (a' & N & Gv). rewrite N, Gv, Hs. eexists. split; [reflexivity|].
        intros _. eexists. rewrite Hr, En. reflexivity. }
    destruct (replay_ok (map audit (stack s)) fz []) as (fr' & Er).
    { intros lids lid H1 H2. specialize (H lids lid H1 H2). destruct (get lid (frozen_of (stack s))) as [[[r st] n]|] eqn:G; [|contradiction].
      destruct (HL lid r st n G) as (i & Ld & _). exists i. exact Ld. }
    exists fr'. split; [exact Er|]. intros lid r st n G Hex. destruct (HL lid _ _ _ G) as (i & Ld & D).
    destruct (proj2 (replay_get _ _ _ _ lid Er) eq_refl Hex) as (i' & Ld' & G'). assert (i' = i) by congruence. subst i'.
    destruct D as (st' & ->); [discriminate|]. exists st'. exact G'.
  Qed.
End Freeze.
