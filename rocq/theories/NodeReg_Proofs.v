(** Lemmas for C52. *)
From Coq Require Import List Arith Bool Lia.
From Verif Require Import Base Dict NodeReg_Model NodeReg_Spec.
Import ListNotations.
Local Open Scope res_scope.

(** ** The registry *)
Lemma existsb_in x l : existsb (Nat.eqb x) l = true <-> In x l.
Proof.
  rewrite existsb_exists. split; [intros (y & I & E); apply Nat.eqb_eq in E; subst; exact I|].
  intros I. exists x. split; [exact I|apply Nat.eqb_refl].
Qed.
Lemma remove_first_filter x l : NoDup l -> remove_first x l = filter (fun y => negb (y =? x)) l.
Proof.
  induction l as [|y l IH]; intros N; [reflexivity|]. inversion N as [|? ? N1 N2]; subst. cbn [remove_first filter].
  rewrite Nat.eqb_sym. destruct (Nat.eqb_spec y x) as [->|Ne]; cbn [negb]; [|f_equal; apply IH, N2].
  clear -N1. induction l as [|z l IH]; [reflexivity|]. cbn [filter]. destruct (Nat.eqb_spec z x) as [->|]; [exfalso; apply N1; left; reflexivity|].
  cbn [negb]. f_equal. apply IH. intros I. apply N1. right. exact I.
Qed.
Lemma filter_all x l : ~ In x l -> filter (fun y => negb (y =? x)) l = l.
Proof.
  induction l as [|z l IH]; intros N; [reflexivity|]. cbn [filter]. destruct (Nat.eqb_spec z x) as [->|]; [exfalso; apply N; left; reflexivity|].
  cbn [negb]. f_equal. apply IH. intros I. apply N. right. exact I.
Qed.
Lemma reg_update_changed reg o : NoDup reg -> reg_update reg o = changed reg o.
Proof.
  intros N. unfold reg_update, changed. destruct (no_validator o) as [[]|]; [| |reflexivity].
  - destruct (in_dec Nat.eq_dec (no_name o) reg) as [I|I].
    + apply existsb_in in I. rewrite I. reflexivity.
    + destruct (existsb (Nat.eqb (no_name o)) reg) eqn:E; [apply existsb_in in E; contradiction|reflexivity].
  - rewrite !andb_false_r, andb_true_r. destruct (existsb (Nat.eqb (no_name o)) reg) eqn:E; [apply remove_first_filter, N|].
    rewrite filter_all; [reflexivity|]. intros I. apply existsb_in in I. congruence.
Qed.
Lemma changed_nodup reg o : NoDup reg -> NoDup (changed reg o).
Proof.
  intros N. unfold changed. destruct (no_validator o) as [[]|]; [| |exact N].
  - destruct (in_dec Nat.eq_dec (no_name o) reg) as [I|I]; [exact N|].
    apply (NoDup_Add (Add_app (no_name o) reg [])). rewrite app_nil_r. auto.
  - apply NoDup_filter, N.
Qed.
Lemma ops_nodup os : forall reg, NoDup reg -> NoDup (fold_left changed os reg).
Proof. induction os; intros reg N; [exact N|]. cbn [fold_left]. apply IHos, changed_nodup, N. Qed.
Definition nb_ok (b : nb) : Prop := match nb_reported b with Some l => NoDup l | None => True end.
Lemma after_nodup reg b : NoDup reg -> nb_ok b -> NoDup (after reg b).
Proof.
  intros N O. unfold after. assert (N1 := ops_nodup (nb_ops b) reg N). unfold nb_ok in O.
  destruct (fold_left changed (nb_ops b) reg); [|exact N1]. destruct (nb_reported b); assumption.
Qed.
Lemma registry_nodup bs : forall reg, NoDup reg -> Forall nb_ok bs -> NoDup (registry reg bs).
Proof.
  induction bs as [|b bs IH]; intros reg N F; [exact N|]. inversion F; subst. cbn [registry fold_left]. apply IH; [apply after_nodup; assumption|assumption].
Qed.
Lemma registry_app reg l1 l2 : registry reg (l1 ++ l2) = registry (registry reg l1) l2.
Proof. apply fold_left_app. Qed.

(** ** Views entered *)
Lemma view_after_app v l1 l2 : view_after v (l1 ++ l2) = view_after (view_after v l1) l2.
Proof. apply fold_left_app. Qed.
Lemma view_after_ge l : forall v, v <= view_after v l.
Proof. induction l as [|b l IH]; intros v; [cbn; lia|]. cbn. specialize (IH (Nat.max v (nb_view b))). unfold view_after in IH. lia. Qed.
Lemma entered_app l1 : forall reg v l2, entered reg v (l1 ++ l2) = entered reg v l1 ++ entered (registry reg l1) (view_after v l1) l2.
Proof.
  induction l1 as [|b l1 IH]; intros reg v l2; [reflexivity|]. cbn [app entered].
  destruct (Nat.ltb_spec v (nb_view b)).
  - rewrite IH. cbn [app registry fold_left view_after]. rewrite Nat.max_r by lia. reflexivity.
  - rewrite IH. cbn [registry fold_left view_after]. rewrite Nat.max_l by lia. reflexivity.
Qed.
Lemma entered_keys l : forall reg v k, In k (map fst (entered reg v l)) -> v < k <= view_after v l.
Proof.
  induction l as [|b l IH]; intros reg v k I; [destruct I|]. cbn [entered] in I. cbn [view_after fold_left].
  destruct (Nat.ltb_spec v (nb_view b)).
  - rewrite Nat.max_r by lia. destruct I as [<-|I].
    + split; [exact H|]. cbn. apply view_after_ge.
    + apply IH in I. unfold view_after in I. lia.
  - rewrite Nat.max_l by lia. apply IH in I. unfold view_after in I. lia.
Qed.

(** ** Sorted dicts *)
Lemma sset_last {V} k (v : V) d : (forall x, In x (map fst d) -> x < k) -> sset k v d = d ++ [(k, v)].
Proof.
  induction d as [|(k0, v0) d IH]; intros L; [reflexivity|]. cbn [sset app].
  assert (k0 < k) by (apply L; left; reflexivity).
  destruct (Nat.eqb_spec k k0); [lia|]. destruct (Nat.ltb_spec k k0); [lia|]. f_equal. apply IH. intros x I. apply L. right. exact I.
Qed.
Lemma sindex_mid {V} k (v : V) d e : ~ In k (map fst d) -> sindex k (d ++ (k, v) :: e) = Some (length d).
Proof.
  induction d as [|(k0, v0) d IH]; intros N; cbn [app sindex]; [rewrite Nat.eqb_refl; reflexivity|].
  destruct (Nat.eqb_spec k k0) as [->|]; [exfalso; apply N; left; reflexivity|].
  rewrite IH; [reflexivity|]. intros I. apply N. right. exact I.
Qed.
Lemma get_last_key {V} k (v : V) d : ~ In k (map fst d) -> get k (d ++ [(k, v)]) = Some v /\ del k (d ++ [(k, v)]) = d.
Proof.
  unfold del. induction d as [|(k0, v0) d IH]; intros N; cbn [app get filter fst]; [rewrite Nat.eqb_refl; auto|].
  destruct (Nat.eqb_spec k k0) as [->|]; [exfalso; apply N; left; reflexivity|].
  rewrite (proj2 (Nat.eqb_neq k0 k)) by auto. cbn [negb]. destruct IH as [-> ->]; [|auto]. intros I. apply N. right. exact I.
Qed.
Lemma last_two_short {V} (l : list V) : length l <= 2 -> last_two l = l.
Proof. intros L. unfold last_two. replace (length l - 2) with 0 by lia. reflexivity. Qed.
Lemma last_two_snoc {V} (l : list V) x : l <> [] -> last_two (l ++ [x]) = skipn (length (last_two l) - 1) (last_two l ++ [x]).
Proof.
  intros N. unfold last_two. rewrite skipn_length, app_length. cbn [length].
  destruct (le_lt_dec (length l) 1) as [L|L].
  - replace (length l - 2) with 0 by lia. rewrite Nat.sub_0_r. replace (length l - 1) with 0 by lia. replace (length l + 1 - 2) with 0 by lia. reflexivity.
  - replace (length l - (length l - 2) - 1) with 1 by lia. replace (length l + 1 - 2) with (length l - 1) by lia.
    rewrite (skipn_app (length l - 1)), (skipn_app 1 (skipn (length l - 2) l)), skipn_length.
    replace (length l - 1 - length l) with 0 by lia. replace (1 - (length l - (length l - 2))) with 0 by lia.
    change (skipn 0 [x]) with [x]. f_equal. rewrite skipn_skipn. f_equal. lia.
Qed.
Lemma in_skipn {V} n (l : list V) x : In x (skipn n l) -> In x l.
Proof. intros I. rewrite <- (firstn_skipn n l). apply in_app_iff. auto. Qed.
Lemma last_two_keys {V} (d : dict V) k : In k (map fst (last_two d)) -> In k (map fst d).
Proof. intros I. apply in_map_iff in I as (x & <- & I). apply in_map. unfold last_two in I. exact (in_skipn _ _ _ I). Qed.

(** ** The heap *)
Lemma upd_length {V} (x : V) l : forall i, length (upd i x l) = length l.
Proof. induction l; intros [|i]; cbn; auto. Qed.
Lemma nth_upd {V} (x d : V) l : forall i j, i < length l -> nth j (upd i x l) d = if j =? i then x else nth j l d.
Proof.
  induction l as [|y l IH]; intros i j L; [cbn in L; lia|]. destruct i as [|i]; cbn [upd].
  - destruct j; reflexivity.
  - destruct j as [|j]; [reflexivity|]. cbn [nth Nat.eqb]. apply IH. cbn in L. lia.
Qed.

Fixpoint recs (reg : list nat) (P : list nb) : list (list nat * nat) :=
  match P with [] => [] | b :: P' => (after reg b, nb_view b) :: recs (after reg b) P' end.
Lemma recs_app P1 : forall reg P2, recs reg (P1 ++ P2) = recs reg P1 ++ recs (registry reg P1) P2.
Proof. induction P1; intros; cbn; [reflexivity|]. rewrite IHP1. reflexivity. Qed.
Fixpoint mono (v : nat) (l : list nb) : Prop := match l with [] => True | b :: l' => v <= nb_view b /\ mono (nb_view b) l' end.
Lemma mono_snoc l : forall v b, mono v (l ++ [b]) <-> mono v l /\ view_after v l <= nb_view b.
Proof.
  induction l as [|c l IH]; intros v b; cbn [app mono view_after fold_left]; [tauto|]. rewrite IH.
  split; intros; repeat match goal with H : _ /\ _ |- _ => destruct H end; (rewrite Nat.max_r in * by lia); unfold view_after in *; tauto.
Qed.
Lemma mono_app l1 : forall v l2, mono v (l1 ++ l2) -> mono v l1 /\ mono (view_after v l1) l2.
Proof.
  induction l1 as [|b l1 IH]; intros v l2 M; [cbn in *; auto|]. cbn [app mono] in M. destruct M as [M1 M2]. apply IH in M2 as [M2 M3].
  split; [cbn; auto|]. cbn [view_after fold_left]. rewrite Nat.max_r by lia. exact M3.
Qed.

Section Inv.
  Variable reg0 : list nat.
  Variable view0 : nat.
  Variable bov0 : dict (list nat).

  (** [bov0]: at most two registries, the last that of [view0] *)
  Definition start_ok : Prop := NoDup reg0 /\ length bov0 <= 2 /\ bov0 <> [] /\ (forall k, In k (map fst bov0) -> k <= view0).

  Record NI (s : nreg) (q : nspec) : Prop :=
    { i_com : committed_node_reg s = registry reg0 (ns_done q);
      i_unc : uncommitted_node_reg s = fold_left changed (ns_open q) (registry reg0 (ns_done q ++ ns_pend q));
      i_queue : map (fun x => (deref s (fst x), snd x)) (n_queue s) = recs (registry reg0 (ns_done q)) (ns_pend q);
      i_rcom : n_com s < length (n_heap s); i_runc : n_unc s < length (n_heap s);
      i_rq : forall r v, In (r, v) (n_queue s) -> r < length (n_heap s);
      i_own : ns_shared q = false -> n_unc s <> n_com s /\ forall v, ~ In (n_unc s, v) (n_queue s);
      i_cview : n_cview s = view_after view0 (ns_done q); i_uview : n_uview s = view_after view0 (ns_done q ++ ns_pend q);
      i_cbov : n_cbov s = last_two (bov0 ++ entered reg0 view0 (ns_done q));
      i_ubov : n_ubov s = n_cbov s ++ entered (registry reg0 (ns_done q)) (n_cview s) (ns_pend q);
      i_mono : mono view0 (ns_done q ++ ns_pend q); i_ok : Forall nb_ok (ns_done q ++ ns_pend q) }.

  Definition op_ok (o : nop) : Prop := match o with NApplied _ _ (Some l) => NoDup l | _ => True end.

  Lemma deref_snoc h x r : r < length h -> nth r (h ++ [x]) [] = nth r h ([] : list nat).
  Proof. intros L. apply app_nth1. exact L. Qed.
  Lemma deref_new (h : list (list nat)) x : nth (length h) (h ++ [x]) [] = x.
  Proof. rewrite app_nth2, Nat.sub_diag by lia. reflexivity. Qed.

  Lemma ni_req s q o : start_ok -> NI s q -> careful1 reg0 q (NReq o) -> NI (apply_request s o) (mkNS (ns_done q) (ns_pend q) (ns_open q ++ [o]) (ns_shared q)).
  Proof.
    intros (N0 & _) I CA. destruct I. unfold apply_request.
    assert (ND : NoDup (uncommitted_node_reg s)) by (rewrite i_unc0; apply ops_nodup, registry_nodup; assumption).
    rewrite reg_update_changed by exact ND. cbn [careful1] in CA. rewrite <- i_unc0 in CA.
    assert (U : forall r, r < length (n_heap s) -> (r = n_unc s -> ns_shared q = true) ->
      nth r (upd (n_unc s) (changed (uncommitted_node_reg s) o) (n_heap s)) [] = nth r (n_heap s) []).
    { intros r L E. rewrite nth_upd by exact i_runc0. destruct (Nat.eqb_spec r (n_unc s)) as [->|]; [|reflexivity]. rewrite CA by auto. reflexivity. }
    constructor; cbn [n_heap n_unc n_com n_cbov n_ubov n_queue n_uview n_cview ns_done ns_pend ns_open ns_shared]; rewrite ?upd_length; try assumption.
    - unfold committed_node_reg, deref in *. cbn [n_heap n_com]. rewrite (U (n_com s)); [exact i_com0|exact i_rcom0|].
      intros E. destruct (ns_shared q); [reflexivity|]. destruct (i_own0 eq_refl). congruence.
    - unfold uncommitted_node_reg, deref in *. cbn [n_heap n_unc]. rewrite nth_upd by exact i_runc0. rewrite Nat.eqb_refl, fold_left_app, i_unc0. reflexivity.
    - rewrite <- i_queue0. apply map_ext_in. intros [r v] IR. cbn [fst snd]. unfold deref. cbn [n_heap]. rewrite U; [reflexivity|exact (i_rq0 _ _ IR)|].
      intros ->. destruct (ns_shared q); [reflexivity|]. destruct (i_own0 eq_refl) as [_ O]. destruct (O _ IR).
  Qed.

  (** adding to the heap changes nothing that is referred to *)
  Lemma ni_reg_only s q s' : NI s q -> n_heap s' = n_heap s -> n_unc s' = n_unc s -> n_com s' = n_com s -> n_cbov s' = n_cbov s ->
    n_ubov s' = n_ubov s -> n_queue s' = n_queue s -> n_uview s' = n_uview s -> n_cview s' = n_cview s -> NI s' q.
  Proof.
    intros [] E1 E2 E3 E4 E5 E6 E7 E8. constructor; unfold committed_node_reg, uncommitted_node_reg, deref in *; rewrite ?E1, ?E2, ?E3, ?E4, ?E5, ?E6, ?E7, ?E8; assumption.
  Qed.

  Lemma last_rec s q r v rest : NI s q -> rev (n_queue s) = (r, v) :: rest -> deref s r = registry reg0 (ns_done q ++ ns_pend q) /\
    exists P b, ns_pend q = P ++ [b] /\ v = nb_view b /\ map (fun x => (deref s (fst x), snd x)) (rev rest) = recs (registry reg0 (ns_done q)) P.
  Proof.
    intros [] E. assert (EQ : n_queue s = rev rest ++ [(r, v)]) by (rewrite <- (rev_involutive (n_queue s)), E; reflexivity).
    rewrite EQ, map_app in i_queue0. destruct (ns_pend q) as [|b P _] using rev_ind; [destruct (map _ (rev rest)); discriminate|].
    rewrite recs_app in i_queue0. cbn [recs map] in i_queue0. apply app_inj_tail in i_queue0 as [Q1 Q2]. injection Q2 as Q2 Q3.
    cbn [fst snd] in *. split; [rewrite Q2, registry_app, registry_app; reflexivity|]. exists P, b. auto.
  Qed.

  Lemma ni_applied s q v orig rep s' reg : start_ok -> NI s q -> post_batch_applied s v orig rep = (s', reg) -> op_ok (NApplied v orig rep) ->
    view_after view0 (ns_done q ++ ns_pend q) <= batch_view v orig ->
    let b := mkNB (ns_open q) (batch_view v orig) rep in
    NI s' (mkNS (ns_done q) (ns_pend q ++ [b]) [] (ns_shared q)) /\ reg = registry reg0 (ns_done q ++ ns_pend q ++ [b]).
  Proof.
    intros ST I E OK LV b. unfold post_batch_applied in E.
    set (s1 := match uncommitted_node_reg s with [] => _ | _ => _ end) in E.
    assert (I1 : committed_node_reg s1 = registry reg0 (ns_done q) /\ uncommitted_node_reg s1 = registry reg0 (ns_done q ++ ns_pend q ++ [b]) /\
      map (fun x => (deref s1 (fst x), snd x)) (n_queue s1) = recs (registry reg0 (ns_done q)) (ns_pend q) /\
      n_com s1 < length (n_heap s1) /\ n_unc s1 < length (n_heap s1) /\ (forall r v, In (r, v) (n_queue s1) -> r < length (n_heap s1)) /\
      (ns_shared q = false -> n_unc s1 <> n_com s1 /\ forall v, ~ In (n_unc s1, v) (n_queue s1)) /\
      n_cview s1 = n_cview s /\ n_uview s1 = n_uview s /\ n_cbov s1 = n_cbov s /\ n_ubov s1 = n_ubov s /\ n_queue s1 = n_queue s /\
      (forall r, r < length (n_heap s) -> deref s1 r = deref s r)).
    { destruct I. assert (RB : forall l, after l b = match fold_left changed (ns_open q) l, rep with [], Some l => l | r, _ => r end) by reflexivity.
      assert (RA : registry reg0 (ns_done q ++ ns_pend q ++ [b]) = match uncommitted_node_reg s, rep with [], Some l => l | r, _ => r end).
      { rewrite app_assoc, registry_app. cbn [registry fold_left]. rewrite RB. fold (registry reg0 (ns_done q ++ ns_pend q)). rewrite <- i_unc0. reflexivity. }
      assert (DF : s1 = s /\ uncommitted_node_reg s = registry reg0 (ns_done q ++ ns_pend q ++ [b]) \/
                   s1 = mkN (n_heap s ++ [registry reg0 (ns_done q ++ ns_pend q ++ [b])]) (length (n_heap s)) (n_com s) (n_cbov s) (n_ubov s) (n_queue s) (n_uview s) (n_cview s) (n_votes s)).
      { unfold s1. destruct (uncommitted_node_reg s) as [|y u] eqn:EU; [|left; rewrite RA; auto].
        destruct rep as [[|x l]|]; [left; auto|right; rewrite RA; reflexivity|left; auto]. }
      clearbody s1. destruct DF as [[-> DU]| ->].
      - split; [assumption|]. split; [exact DU|]. auto 12.
      - unfold committed_node_reg, uncommitted_node_reg, deref in *. cbn [n_heap n_unc n_com n_cbov n_ubov n_queue n_uview n_cview].
        rewrite deref_new, app_length. cbn [length]. split; [rewrite deref_snoc; assumption|]. split; [reflexivity|].
        split. { rewrite <- i_queue0. apply map_ext_in. intros [r w] IR. cbn [fst snd]. rewrite deref_snoc; [reflexivity|exact (i_rq0 _ _ IR)]. }
        split; [lia|]. split; [lia|]. split; [intros r w IR; specialize (i_rq0 _ _ IR); lia|].
        split. { intros _. split; [lia|]. intros w IR. specialize (i_rq0 _ _ IR). lia. }
        split; [reflexivity|]. split; [reflexivity|]. split; [reflexivity|]. split; [reflexivity|]. split; [reflexivity|].
        intros r L. apply deref_snoc. exact L. }
    clearbody s1. destruct I1 as (J1 & J2 & J3 & J4 & J5 & J6 & J7 & J8 & J9 & J10 & J11 & J12 & J13).
    set (r := match rev (n_queue s1) with [] => _ | _ => _ end) in E.
    assert (ER : r = registry reg0 (ns_done q ++ ns_pend q)).
    { unfold r. rewrite J12. destruct (rev (n_queue s)) as [|[r1 v1] rest] eqn:EQ.
      - destruct I. rewrite J1. assert (Q0 : n_queue s = []) by (rewrite <- (rev_involutive (n_queue s)), EQ; reflexivity).
        rewrite Q0 in i_queue0. destruct (ns_pend q); [rewrite app_nil_r; reflexivity|discriminate].
      - rewrite J13; [exact (proj1 (last_rec s q r1 v1 rest I EQ))|]. apply (i_rq _ _ I r1 v1). apply in_rev. rewrite EQ. left. reflexivity. }
    clearbody r. subst r. destruct I.
    set (s2 := if n_uview s1 <? _ then _ else _) in E.
    assert (I2 : n_heap s2 = n_heap s1 /\ n_unc s2 = n_unc s1 /\ n_com s2 = n_com s1 /\ n_cbov s2 = n_cbov s /\ n_queue s2 = n_queue s /\ n_cview s2 = n_cview s /\
      n_uview s2 = batch_view v orig /\ n_ubov s2 = n_cbov s ++ entered (registry reg0 (ns_done q)) (n_cview s) (ns_pend q ++ [b])).
    { rewrite entered_app, app_assoc, <- i_ubov0, <- registry_app.
      replace (view_after (n_cview s) (ns_pend q)) with (n_uview s) by (rewrite i_uview0, i_cview0; symmetry; symmetry; apply view_after_app).
      cbn [entered nb_view b]. unfold s2. rewrite J9. destruct (Nat.ltb_spec (n_uview s) (batch_view v orig)) as [L|L]; cbn [n_heap n_unc n_com n_cbov n_ubov n_queue n_uview n_cview].
      - rewrite J10, J11, J12, J8. split; [reflexivity|]. split; [reflexivity|]. split; [reflexivity|]. split; [reflexivity|]. split; [reflexivity|]. split; [reflexivity|]. split; [reflexivity|].
        apply sset_last. intros k Ik. rewrite i_ubov0, map_app in Ik. apply in_app_iff in Ik as [Ik|Ik].
        + rewrite i_cbov0 in Ik. apply last_two_keys in Ik. rewrite map_app in Ik. apply in_app_iff in Ik as [Ik|Ik].
          * destruct ST as (_ & _ & _ & ST). apply ST in Ik. assert (G := view_after_ge (ns_done q ++ ns_pend q) view0). lia.
          * apply entered_keys in Ik. rewrite view_after_app in LV, i_uview0. assert (G := view_after_ge (ns_pend q) (view_after view0 (ns_done q))). lia.
        + apply entered_keys in Ik. rewrite view_after_app in LV, i_uview0. rewrite i_cview0 in Ik. lia.
      - assert (n_uview s = batch_view v orig) by lia. rewrite app_nil_r. rewrite J9, J10, J11, J12, J8. auto 10. }
    clearbody s2. destruct I2 as (K1 & K2 & K3 & K4 & K5 & K6 & K7 & K8).
    injection E as <- <-.
    assert (U2 : uncommitted_node_reg s2 = registry reg0 (ns_done q ++ ns_pend q ++ [b])) by (unfold uncommitted_node_reg, deref in *; rewrite K1, K2; exact J2).
    rewrite U2. split; [|reflexivity].
    constructor; unfold committed_node_reg, uncommitted_node_reg, deref in *; cbn [n_heap n_unc n_com n_cbov n_ubov n_queue n_uview n_cview ns_done ns_pend ns_open ns_shared];
      rewrite ?K1, ?K2, ?K3, ?K4, ?K5, ?K6, ?K7, ?K8, ?app_length; cbn [length fold_left]; try lia.
    - rewrite deref_snoc by exact J4. exact J1.
    - rewrite deref_snoc by exact J5. exact J2.
    - rewrite J12 in *. rewrite map_app, recs_app. cbn [map recs fst snd]. rewrite deref_new. f_equal.
      + rewrite <- J3. apply map_ext_in. intros [r w] IR. cbn [fst snd]. rewrite deref_snoc; [reflexivity|exact (J6 _ _ IR)].
      + rewrite <- registry_app. cbn [nb_view b]. do 2 f_equal. rewrite app_assoc. rewrite registry_app. reflexivity.
    - rewrite J12 in *. intros r w IR. apply in_app_iff in IR as [IR|[IR|[]]]; [specialize (J6 _ _ IR); lia|injection IR as <- _; lia].
    - rewrite J12 in *. intros SH. destruct (J7 SH) as [O1 O2]. split; [exact O1|]. intros w IR. apply in_app_iff in IR as [IR|[IR|[]]]; [exact (O2 _ IR)|injection IR as IR _; lia].
    - rewrite app_assoc, view_after_app. unfold view_after at 1. cbn [fold_left nb_view b]. rewrite Nat.max_r by exact LV. reflexivity.
    - exact i_cbov0.
    - reflexivity.
    - rewrite app_assoc. apply mono_snoc. split; [exact i_mono0|exact LV].
    - rewrite app_assoc. apply Forall_app. split; [exact i_ok0|]. constructor; [|constructor]. unfold nb_ok, b. cbn. destruct rep; [exact OK|exact Logic.I].
  Qed.

  Lemma ni_rejected s q P b : start_ok -> NI s q -> ns_pend q = P ++ [b] ->
    exists s', post_batch_rejected s = Ok s' /\ NI s' (mkNS (ns_done q) P [] (negb (length (ns_pend q) =? 1))).
  Proof.
    intros ST I EP. unfold post_batch_rejected. destruct (rev (n_queue s)) as [|[r rv] rest] eqn:EQ.
    { destruct I. assert (n_queue s = []) as Q0 by (rewrite <- (rev_involutive (n_queue s)), EQ; reflexivity).
      rewrite Q0, EP, recs_app in i_queue0. destruct (recs _ P); discriminate. }
    destruct (last_rec s q r rv rest I EQ) as (_ & P' & b' & EP' & -> & MQ). rewrite EP in EP'. apply app_inj_tail in EP' as [<- <-].
    assert (QI : forall r v, In (r, v) (rev rest) -> In (r, v) (n_queue s)).
    { intros r1 v1 IR. apply in_rev. rewrite EQ. right. apply in_rev. exact IR. }
    set (s1 := match rest with [] => _ | _ => _ end).
    assert (M : mono view0 (ns_done q ++ P) /\ view_after view0 (ns_done q ++ P) <= nb_view b).
    { destruct I. rewrite EP, app_assoc in i_mono0. apply mono_snoc in i_mono0. exact i_mono0. }
    destruct M as [M1 M2]. assert (OKP : Forall nb_ok (ns_done q ++ P)).
    { destruct I. rewrite EP, app_assoc in i_ok0. apply Forall_app in i_ok0. tauto. }
    assert (LN : length P = length rest).
    { assert (length (map (fun x : nat * nat => (deref s (fst x), snd x)) (rev rest)) = length (recs (registry reg0 (ns_done q)) P)) by (f_equal; exact MQ).
      rewrite map_length, rev_length in H. rewrite H. clear. generalize (registry reg0 (ns_done q)). induction P; intros; cbn; auto. }
    assert (UB : n_ubov s = (n_cbov s ++ entered (registry reg0 (ns_done q)) (n_cview s) P) ++
                 (if view_after view0 (ns_done q ++ P) <? nb_view b then [(nb_view b, registry reg0 (ns_done q ++ P))] else [])).
    { destruct I. rewrite i_ubov0, EP, entered_app, <- registry_app, i_cview0, <- view_after_app, app_assoc. cbn [entered]. reflexivity. }
    assert (I1 : committed_node_reg s1 = registry reg0 (ns_done q) /\ uncommitted_node_reg s1 = registry reg0 (ns_done q ++ P) /\
      map (fun x => (deref s1 (fst x), snd x)) (n_queue s1) = recs (registry reg0 (ns_done q)) P /\
      n_com s1 < length (n_heap s1) /\ n_unc s1 < length (n_heap s1) /\ (forall r v, In (r, v) (n_queue s1) -> r < length (n_heap s1)) /\
      (length (ns_pend q) = 1 -> n_unc s1 <> n_com s1 /\ forall v, ~ In (n_unc s1, v) (n_queue s1)) /\
      n_cview s1 = n_cview s /\ n_uview s1 = view_after view0 (ns_done q ++ P) /\ n_cbov s1 = n_cbov s /\ n_ubov s1 = n_ubov s /\ n_votes s1 = n_votes s).
    { destruct I. unfold s1. destruct rest as [|[r1 v1] rest].
      - destruct P; [|discriminate]. rewrite app_nil_r in *. cbn [rev] in *.
        unfold committed_node_reg, uncommitted_node_reg, deref in *. cbn [n_heap n_unc n_com n_cbov n_ubov n_queue n_uview n_cview n_votes map recs].
        rewrite deref_new, deref_snoc, app_length by exact i_rcom0. cbn [length]. split; [exact i_com0|]. split; [exact i_com0|].
        split; [reflexivity|]. split; [lia|]. split; [lia|]. split; [intros ? ? []|]. split; [intros _; split; [lia|intros ? []]|].
        split; [reflexivity|]. split; [exact i_cview0|]. auto.
      - assert (NP : P <> []) by (intros ->; discriminate). destruct P as [|c P _] using rev_ind; [congruence|].
        rewrite recs_app in MQ. cbn [rev] in MQ. rewrite map_app in MQ. cbn [map recs] in MQ. apply app_inj_tail in MQ as [MQ1 MQ2]. injection MQ2 as MQ2 MQ3. cbn [fst snd] in MQ2, MQ3.
        unfold committed_node_reg, uncommitted_node_reg in *. unfold deref in *. cbn [n_heap n_unc n_com n_cbov n_ubov n_queue n_uview n_cview n_votes].
        split; [exact i_com0|]. split; [rewrite MQ2, app_assoc, registry_app, registry_app; reflexivity|].
        split. { cbn [rev]. rewrite map_app, recs_app. cbn [map recs fst snd]. rewrite MQ1, MQ2, MQ3. reflexivity. }
        split; [exact i_rcom0|]. split; [apply (i_rq0 r1 v1), QI; cbn [rev]; apply in_app_iff; right; left; reflexivity|].
        split; [intros r2 v2 IR; exact (i_rq0 _ _ (QI _ _ IR))|]. split; [rewrite EP, !app_length; cbn [length]; lia|].
        split; [reflexivity|]. split; [|auto].
        rewrite app_assoc in M1 |- *. apply mono_snoc in M1 as [_ M1]. rewrite view_after_app. unfold view_after at 1. cbn [fold_left]. rewrite Nat.max_r by exact M1. exact MQ3. }
    clearbody s1. destruct I1 as (J1 & J2 & J3 & J4 & J5 & J6 & J7 & J8 & J9 & J10 & J11 & J12). rewrite J9, J11, UB.
    assert (KY : forall k, In k (map fst (n_cbov s ++ entered (registry reg0 (ns_done q)) (n_cview s) P)) -> k <= view_after view0 (ns_done q ++ P)).
    { destruct I. intros k Ik. rewrite map_app in Ik. apply in_app_iff in Ik as [Ik|Ik].
      - rewrite i_cbov0 in Ik. apply last_two_keys in Ik. rewrite map_app in Ik. apply in_app_iff in Ik as [Ik|Ik].
        + destruct ST as (_ & _ & _ & ST). apply ST in Ik. assert (G := view_after_ge (ns_done q ++ P) view0). lia.
        + apply entered_keys in Ik. rewrite view_after_app. assert (G := view_after_ge P (view_after view0 (ns_done q))). lia.
      - apply entered_keys in Ik. rewrite view_after_app. rewrite i_cview0 in Ik. lia. }
    destruct (Nat.ltb_spec (view_after view0 (ns_done q ++ P)) (nb_view b)) as [L|L].
    - destruct (get_last_key (nb_view b) (registry reg0 (ns_done q ++ P)) (n_cbov s ++ entered (registry reg0 (ns_done q)) (n_cview s) P)) as [G1 G2].
      { intros Ik. apply KY in Ik. lia. }
      rewrite G1, G2. eexists. split; [reflexivity|]. destruct I.
      constructor; unfold committed_node_reg, uncommitted_node_reg, deref in *; cbn [n_heap n_unc n_com n_cbov n_ubov n_queue n_uview n_cview ns_done ns_pend ns_open ns_shared fold_left];
        rewrite ?J8, ?J10; try assumption; try reflexivity.
      intros SH. apply J7. destruct (Nat.eqb_spec (length (ns_pend q)) 1); [assumption|discriminate].
    - eexists. split; [reflexivity|]. destruct I. rewrite app_nil_r in UB.
      constructor; cbn [ns_done ns_pend ns_open ns_shared fold_left]; rewrite ?J8, ?J10; try assumption.
      + intros SH. apply J7. destruct (Nat.eqb_spec (length (ns_pend q)) 1); [assumption|discriminate].
      + rewrite J11. exact UB.
  Qed.

  Lemma ni_commit s q b rest v orig : start_ok -> NI s q -> ns_pend q = b :: rest -> batch_view v orig = nb_view b ->
    exists s', commit_batch s v orig = Ok s' /\ NI s' (mkNS (ns_done q ++ [b]) rest (ns_open q) (ns_shared q)) /\
      n_votes s' = n_votes s ++ (if length (registry reg0 (ns_done q)) =? length (registry reg0 (ns_done q ++ [b])) then [] else [nb_view b + 1]).
  Proof.
    intros ST I EP EV. unfold commit_batch. rewrite EV.
    assert (QC : exists r vq qs, n_queue s = (r, vq) :: qs /\ deref s r = registry reg0 (ns_done q ++ [b]) /\
      map (fun x => (deref s (fst x), snd x)) qs = recs (registry reg0 (ns_done q ++ [b])) rest).
    { destruct I. rewrite EP in i_queue0. destruct (n_queue s) as [|[r vq] qs]; [discriminate|]. cbn [map recs fst snd] in i_queue0.
      injection i_queue0 as Q1 _ Q3. exists r, vq, qs. rewrite registry_app. auto. }
    destruct QC as (r & vq & qs & EQ & ER & MQ).
    set (s1 := if n_cview s <? nb_view b then _ else _).
    assert (KY : forall k, In k (map fst (n_cbov s)) -> k <= n_cview s).
    { destruct I. intros k Ik. rewrite i_cbov0 in Ik. apply last_two_keys in Ik. rewrite map_app in Ik. apply in_app_iff in Ik as [Ik|Ik].
      - destruct ST as (_ & _ & _ & ST). apply ST in Ik. rewrite i_cview0. assert (G := view_after_ge (ns_done q) view0). lia.
      - apply entered_keys in Ik. lia. }
    assert (VA : view_after view0 (ns_done q ++ [b]) = Nat.max (n_cview s) (nb_view b)).
    { destruct I. rewrite view_after_app, i_cview0. reflexivity. }
    assert (I1 : n_heap s1 = n_heap s /\ n_unc s1 = n_unc s /\ n_com s1 = n_com s /\ n_queue s1 = n_queue s /\ n_uview s1 = n_uview s /\ n_votes s1 = n_votes s /\
      n_cview s1 = view_after view0 (ns_done q ++ [b]) /\ n_cbov s1 = last_two (bov0 ++ entered reg0 view0 (ns_done q ++ [b])) /\
      n_ubov s1 = n_cbov s1 ++ entered (registry reg0 (ns_done q ++ [b])) (n_cview s1) rest).
    { rewrite VA. destruct I. rewrite entered_app, <- i_cview0. cbn [entered]. rewrite registry_app. cbn [registry fold_left]. fold (registry reg0 (ns_done q)). unfold s1.
      rewrite EP in i_ubov0. cbn [entered] in i_ubov0.
      destruct (Nat.ltb_spec (n_cview s) (nb_view b)) as [L|L]; cbn [n_heap n_unc n_com n_cbov n_ubov n_queue n_uview n_cview n_votes].
      - rewrite Nat.max_r by lia. split; [reflexivity|]. split; [reflexivity|]. split; [reflexivity|]. split; [reflexivity|]. split; [reflexivity|]. split; [reflexivity|]. split; [reflexivity|].
        assert (NI : ~ In (nb_view b) (map fst (n_cbov s))) by (intros Ik; apply KY in Ik; lia).
        assert (CB : gc (nb_view b) (sset (nb_view b) (committed_node_reg s) (n_cbov s)) = skipn (length (n_cbov s) - 1) (n_cbov s ++ [(nb_view b, registry reg0 (ns_done q))])).
        { rewrite sset_last by (intros k Ik; apply KY in Ik; lia). unfold gc. rewrite sindex_mid by exact NI. rewrite i_com0. reflexivity. }
        rewrite CB. split.
        + rewrite app_assoc, last_two_snoc.
          * rewrite <- i_cbov0. reflexivity.
          * destruct ST as (_ & _ & NE & _). destruct bov0; [congruence|discriminate].
        + unfold gc. rewrite i_ubov0, sindex_mid by exact NI. rewrite !skipn_app, <- app_assoc. f_equal.
          replace (length (n_cbov s) - 1 - length (n_cbov s)) with 0 by lia. reflexivity.
      - rewrite Nat.max_l by lia. rewrite app_nil_r. auto 10. }
    clearbody s1. destruct I1 as (J1 & J2 & J3 & J4 & J5 & J6 & J7 & J8 & J9). rewrite J4, EQ. eexists. split; [reflexivity|]. split.
    - destruct I. constructor; unfold committed_node_reg, uncommitted_node_reg, deref in *; cbn [n_heap n_unc n_com n_cbov n_ubov n_queue n_uview n_cview ns_done ns_pend ns_open ns_shared];
        rewrite ?J1, ?J2; try assumption.
      + rewrite i_unc0, EP, <- app_assoc. reflexivity.
      + apply (i_rq0 r vq). rewrite EQ. left. reflexivity.
      + intros r1 v1 IR. apply (i_rq0 r1 v1). rewrite EQ. right. exact IR.
      + intros SH. destruct (i_own0 SH) as [O1 O2]. rewrite EQ in O2. split; [intros C; apply (O2 vq); left; rewrite C; reflexivity|]. intros w IR. apply (O2 w). right. exact IR.
      + rewrite J5, i_uview0, EP, <- app_assoc. reflexivity.
      + rewrite <- app_assoc. rewrite EP in i_mono0. exact i_mono0.
      + rewrite <- app_assoc. rewrite EP in i_ok0. exact i_ok0.
    - cbn [n_votes]. destruct I. unfold committed_node_reg, deref in *. rewrite J1, J3, J6, i_com0, ER. destruct (length _ =? _); [rewrite app_nil_r; reflexivity|reflexivity].
  Qed.
End Inv.
