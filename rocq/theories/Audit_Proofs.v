(** Lemmas for C41. *)
From Coq Require Import List Arith NArith ZArith Bool Lia.
From Verif Require Import Base Dict Merkle_Model Ledger_Model Ledger_Spec Ledger_Props Tracker_Model Tracker_Props
  Audit_Model Audit_Spec.
Import ListNotations.
Local Open Scope res_scope.

Lemma nth_snoc {A} (l : list A) x i y : nth_error (l ++ [x]) i = Some y ->
  (i < length l /\ nth_error l i = Some y) \/ (i = length l /\ y = x).
Proof.
  intros E. destruct (lt_eq_lt_dec i (length l)) as [[L|L]|L].
  - left. rewrite nth_error_app1 in E by lia. auto.
  - right. subst i. rewrite nth_error_app2, Nat.sub_diag in E by lia. cbn in E. injection E as ->. auto.
  - rewrite nth_error_app2 in E by lia. destruct (i - length l) as [|k] eqn:K; [lia|]. cbn in E. destruct k; discriminate.
Qed.
Lemma nth_snoc_last {A} (l : list A) x : nth_error (l ++ [x]) (length l) = Some x.
Proof. rewrite nth_error_app2, Nat.sub_diag by lia. reflexivity. Qed.
Lemma nth_snoc_old {A} (l : list A) x i y : nth_error l i = Some y -> nth_error (l ++ [x]) i = Some y.
Proof. intros E. rewrite nth_error_app1; [exact E|]. apply nth_error_Some. congruence. Qed.

(** ** [stands_for] when transactions are added *)
Lemma stands_app {V} (f : adata -> option (fld V)) A a i v : stands_for f A i v -> stands_for f (A ++ [a]) i v.
Proof.
  intros (x & E & D). exists x. split; [apply nth_snoc_old, E|]. destruct D as [D|(n & a' & D1 & D2 & D3 & D4)]; [auto|].
  right. exists n, a'. split; [exact D1|]. split; [exact D2|]. split; [apply nth_snoc_old, D3|exact D4].
Qed.
Lemma stands_new {V} (f : adata -> option (fld V)) A a v : f a = Some (Val v) -> stands_for f (A ++ [a]) (length A) v.
Proof. intros E. exists a. split; [apply nth_snoc_last|auto]. Qed.
Definition next_fld {V} (x : fld V) : fld V := match x with Val _ => Back 1 | Back n => Back (n + 1) end.
Lemma stands_next {V} (f : adata -> option (fld V)) A l a x v : stands_for f (A ++ [l]) (length A) v -> f l = Some x ->
  f a = Some (next_fld x) -> stands_for f ((A ++ [l]) ++ [a]) (length (A ++ [l])) v.
Proof.
  intros (y & E & D) Fl Fa. rewrite nth_snoc_last in E. injection E as <-. exists a. split; [apply nth_snoc_last|]. right.
  rewrite app_length. cbn [length]. destruct D as [D|(n & a' & D1 & D2 & D3 & D4)].
  - assert (x = Val v) by congruence. subst x. exists 1, l. split; [exact Fa|]. split; [lia|].
    replace (length A + 1 - 1) with (length A) by lia. split; [apply nth_snoc_old, nth_snoc_last|exact D].
  - assert (x = Back n) by congruence. subst x. exists (n + 1), a'. split; [exact Fa|]. split; [lia|].
    replace (length A + 1 - (n + 1)) with (length A - n) by lia. split; [apply nth_snoc_old, D3|exact D4].
Qed.

Section Audit.
  Variable root : list bytes -> bytes.

  (** ** What one new transaction holds *)
  Definition skipped (frozen : dict nat) (lid : nat) : bool :=
    (lid =? AUDIT_LEDGER_ID) || (if get lid frozen then true else false).
  Definition repeated (lid : nat) (l : adata) : option (fld bytes) := option_map next_fld (get lid (a_root l)).
  Definition root_rule (lid : nat) (v : lview) (last : option adata) (b : batch) : option (fld bytes) :=
    let w := Some (Val (root (lv_txns v))) in
    if lid =? b_ledger b then w
    else match last with
         | None => if negb (lv_size v =? 0) then w else None
         | Some l => match get lid (a_size l) with
                     | None => if negb (lv_unc v =? 0) then w else repeated lid l
                     | Some n0 => if n0 <? lv_size v then w else repeated lid l
                     end
         end.

  Lemma write_roots_get lid v a a' k : write_roots root lid v a = Ok a' ->
    get k (a_root a') = (if k =? lid then Some (Val (root (lv_txns v))) else get k (a_root a)) /\
    a_size a' = a_size a /\ a_view a' = a_view a /\ a_seq a' = a_seq a /\ a_digest a' = a_digest a.
  Proof.
    unfold write_roots. destruct (lv_state v) as [h|]; [|discriminate]. intros E. injection E as <-. cbn. rewrite get_set. auto.
  Qed.

  Lemma set_root_get lid x a k :
    get k (a_root (set_root lid x a)) = (if k =? lid then Some x else get k (a_root a)) /\
    a_size (set_root lid x a) = a_size a /\ a_view (set_root lid x a) = a_view a /\ a_seq (set_root lid x a) = a_seq a /\
    a_digest (set_root lid x a) = a_digest a.
  Proof. cbn. rewrite get_set. auto. Qed.

  Lemma fill_one_get lid v last b a a' k : fill_ledger_root_hash root lid v last b a = Ok a' ->
    get k (a_root a') = (if k =? lid then match root_rule lid v last b with Some x => Some x | None => get k (a_root a) end
                         else get k (a_root a)) /\
    a_size a' = a_size a /\ a_view a' = a_view a /\ a_seq a' = a_seq a /\ a_digest a' = a_digest a.
  Proof.
    unfold fill_ledger_root_hash, root_rule. intros E.
    assert (N : Ok a = Ok a' -> get k (a_root a') = (if k =? lid then get k (a_root a) else get k (a_root a)) /\
      a_size a' = a_size a /\ a_view a' = a_view a /\ a_seq a' = a_seq a /\ a_digest a' = a_digest a).
    { intros Q. injection Q as <-. destruct (k =? lid); auto. }
    destruct (lid =? b_ledger b); [apply write_roots_get, E|].
    destruct last as [l|].
    - unfold repeated. destruct (get lid (a_size l)) as [n0|].
      + destruct (n0 <? lv_size v); [apply write_roots_get, E|].
        destruct (get lid (a_root l)) as [[r|n]|]; cbn [option_map next_fld]; [| |apply N, E]; injection E as <-; apply set_root_get.
      + destruct (negb (lv_unc v =? 0)); [apply write_roots_get, E|].
        destruct (get lid (a_root l)) as [[r|n]|]; cbn [option_map next_fld]; [| |apply N, E]; injection E as <-; apply set_root_get.
    - destruct (negb (lv_size v =? 0)); [apply write_roots_get, E|apply N, E].
  Qed.

  Lemma fill_ledgers_get ls fr last b : NoDup (map fst ls) -> forall a a', fill_ledgers root ls fr last b a = Ok a' ->
    (forall k, get k (a_size a') = match get k ls with
                                   | Some v => if skipped fr k then get k (a_size a) else Some (lv_size v)
                                   | None => get k (a_size a) end /\
               get k (a_root a') = match get k ls with
                                   | Some v => if skipped fr k then get k (a_root a)
                                               else match root_rule k v last b with Some x => Some x | None => get k (a_root a) end
                                   | None => get k (a_root a) end) /\
    a_view a' = a_view a /\ a_seq a' = a_seq a /\ a_digest a' = a_digest a.
  Proof.
    induction ls as [|(lid, v) ls IH]; cbn [fill_ledgers map fst]; intros ND a a' E.
    - injection E as <-. cbn [get]. auto.
    - inversion ND as [|? ? ND1 ND2]; subst. fold (skipped fr lid) in E. destruct (skipped fr lid) eqn:SK.
      + destruct (IH ND2 _ _ E) as (K & R). split; [|exact R]. intros k. destruct (K k) as [K1 K2]. cbn [get].
        destruct (Nat.eqb_spec k lid) as [->|Ne]; [|auto]. rewrite SK. apply get_none in ND1. rewrite ND1 in K1, K2. auto.
      + destruct (fill_ledger_root_hash root lid v last b (set_size lid (lv_size v) a)) as [a1|] eqn:F; [|discriminate].
        cbn [bind] in E. destruct (IH ND2 _ _ E) as (K & R1 & R2 & R3).
        assert (G := fun k => fill_one_get lid v last b _ _ k F).
        destruct (G 0) as (_ & GS & GV & GQ & GD). cbn [set_size a_size a_view a_seq a_digest] in *.
        split; [|rewrite R1, R2, R3; auto].
        intros k. destruct (K k) as [K1 K2]. destruct (G k) as (GR & _). cbn [set_size a_root] in GR. cbn [get].
        rewrite GS, get_set in K1. rewrite GR in K2. clear GR.
        destruct (k =? lid) eqn:Ek; [|auto]. apply Nat.eqb_eq in Ek. subst k. rewrite SK. apply get_none in ND1. rewrite ND1 in K1, K2. auto.
  Qed.

  Definition fz (l : adata) := fun a '(lid, seq_no) =>
        match get lid (a_root l) with
        | Some (Back n) =>
          let a := set_root lid (Back (n + 1)) (set_size lid seq_no a) in
          match get lid (a_state l) with Some h => set_state lid h a | None => a end
        | _ => a
        end.
  Lemma fz_get l a lid n k :
    get k (a_root (fz l a (lid, n))) = (if k =? lid then match get lid (a_root l) with
                                          Some (Back m) => Some (Back (m + 1)) | _ => get k (a_root a) end else get k (a_root a)) /\
    get k (a_size (fz l a (lid, n))) = (if k =? lid then match get lid (a_root l) with
                                          Some (Back m) => Some n | _ => get k (a_size a) end else get k (a_size a)) /\
    a_view (fz l a (lid, n)) = a_view a /\ a_seq (fz l a (lid, n)) = a_seq a /\ a_digest (fz l a (lid, n)) = a_digest a.
  Proof.
    unfold fz. destruct (get lid (a_root l)) as [[r|m]|]; [destruct (k =? lid); auto| |destruct (k =? lid); auto].
    destruct (get lid (a_state l)); cbn; rewrite !get_set; auto.
  Qed.
  Lemma fill_frozen_get last fr : NoDup (map fst fr) -> forall a,
    (forall k, get k (a_root (fill_frozen last fr a)) =
       match last, get k fr with
       | Some l, Some n => match get k (a_root l) with Some (Back m) => Some (Back (m + 1)) | _ => get k (a_root a) end
       | _, _ => get k (a_root a) end /\
     get k (a_size (fill_frozen last fr a)) =
       match last, get k fr with
       | Some l, Some n => match get k (a_root l) with Some (Back m) => Some n | _ => get k (a_size a) end
       | _, _ => get k (a_size a) end) /\
    a_view (fill_frozen last fr a) = a_view a /\ a_seq (fill_frozen last fr a) = a_seq a /\ a_digest (fill_frozen last fr a) = a_digest a.
  Proof.
    unfold fill_frozen. destruct last as [l|]; [|auto]. fold (fz l).
    induction fr as [|(lid, n) fr IH]; cbn [fold_left map fst get]; intros ND a; [auto|].
    inversion ND as [|? ? ND1 ND2]; subst. destruct (IH ND2 (fz l a (lid, n))) as (K & R1 & R2 & R3).
    assert (G := fz_get l a lid n). destruct (G 0) as (_ & _ & GV & GQ & GD).
    split; [|rewrite R1, R2, R3; auto]. intros k. destruct (K k) as [K1 K2], (G k) as (G1 & G2 & _).
    rewrite K1, K2, G1, G2. apply get_none in ND1.
    destruct (Nat.eqb_spec k lid) as [->|Ne]; [rewrite ND1; auto|auto].
  Qed.

  (** ** The content of an audit ledger as a list *)
  Definition lastA (A : list adata) : option (option nat * adata) :=
    match rev A with [] => None | a :: _ => Some (Some (length A), a) end.
  Definition look (A : list adata) (n : nat) : res adata :=
    match n with 0 => Err KeyError | S i => match nth_error A i with Some a => Ok a | None => Err KeyError end end.
  Definition createL (A : list adata) (x : env * batch) : res adata :=
    create root (lastA A) (length A) (look A) (fst x) (snd x).

  Inductive Built : list (env * batch) -> list adata -> Prop :=
  | B_nil : Built [] []
  | B_snoc l A x a : Built l A -> createL A x = Ok a -> Built (l ++ [x]) (A ++ [a]).

  Lemma built_length l A : Built l A -> length A = length l.
  Proof. induction 1; [reflexivity|]. rewrite !app_length. cbn. lia. Qed.
  Lemma built_snoc_inv l x A : Built (l ++ [x]) A -> exists A' a, A = A' ++ [a] /\ Built l A' /\ createL A' x = Ok a.
  Proof.
    intros Bt. inversion Bt as [E|l0 A0 x0 a0 B0 C0 E]; [destruct l; discriminate|].
    apply app_inj_tail in E as [-> ->]. eauto.
  Qed.
  Lemma lastA_snoc A a : lastA (A ++ [a]) = Some (Some (S (length A)), a).
  Proof. unfold lastA. rewrite rev_app_distr, app_length. cbn [rev app length]. rewrite Nat.add_1_r. reflexivity. Qed.

  (** what a transaction says about its own batch *)
  Lemma create_fields A x a : createL A x = Ok a -> proper x ->
    let l := option_map snd (lastA A) in
    a_view a = match b_orig (snd x) with Some v => v | None => b_view (snd x) end /\ a_seq a = b_seq (snd x) /\
    a_digest a = b_digest (snd x) /\
    fill_primaries (lastA A) (length A) (look A) (b_prim (snd x)) = Ok (a_prim a) /\
    fill_node_reg (lastA A) (length A) (look A) (b_reg (snd x)) = Ok (a_reg a) /\
    (forall lid v, live lid x v -> get lid (a_size a) = Some (lv_size v) /\ get lid (a_root a) = root_rule lid v l (snd x)) /\
    (forall lid, (forall v, ~ live lid x v) -> ~ frozen lid x -> get lid (a_size a) = None /\ get lid (a_root a) = None) /\
    (forall lid, frozen lid x -> get lid (a_root a) = match l with
        | Some y => match get lid (a_root y) with Some (Back m) => Some (Back (m + 1)) | _ => None end | None => None end).
  Proof.
    destruct x as [e b]. unfold createL, create, proper, live, frozen. cbn [fst snd]. intros E [ND1 ND2].
    set (l := option_map snd (lastA A)) in *.
    set (a0 := mkA _ _ _ _ _ _ _ _) in E.
    destruct (fill_ledgers root (e_ledgers e) (e_frozen e) l b a0) as [a1|] eqn:E1; [|discriminate]. cbn [bind] in E.
    destruct (fill_primaries (lastA A) (length A) (look A) (b_prim b)) as [ps|] eqn:E2; [|discriminate]. cbn [bind] in E.
    destruct (fill_node_reg (lastA A) (length A) (look A) (b_reg b)) as [rg|] eqn:E3; [|discriminate]. cbn [bind] in E.
    injection E as <-. cbn [a_view a_seq a_digest a_prim a_reg a_size a_root].
    destruct (fill_ledgers_get _ _ _ _ ND1 _ _ E1) as (K & V1 & V2 & V3).
    destruct (fill_frozen_get l (e_frozen e) ND2 a1) as (F & W1 & W2 & W3).
    rewrite W1, W2, W3, V1, V2, V3. split; [reflexivity|]. split; [reflexivity|]. split; [reflexivity|]. split; [reflexivity|].
    split; [reflexivity|]. split; [|split].
    - intros lid v (L1 & L2 & L3). destruct (F lid) as [F1 F2], (K lid) as [K1 K2]. rewrite F1, F2, L2. rewrite L1 in K1, K2.
      assert (SK : skipped (e_frozen e) lid = false).
      { unfold skipped. rewrite L2. destruct (Nat.eqb_spec lid AUDIT_LEDGER_ID); [contradiction|reflexivity]. }
      rewrite SK in K1, K2. cbn [a0 a_root get] in K2. destruct (root_rule lid v l b); destruct l; auto.
    - intros lid NL NF. destruct (F lid) as [F1 F2], (K lid) as [K1 K2].
      assert (G : get lid (e_frozen e) = None) by (destruct (get lid (e_frozen e)); [destruct NF; discriminate|reflexivity]).
      rewrite G in F1, F2. rewrite F1, F2, K1, K2. cbn [a0 a_size a_root get].
      assert (SK : get lid (e_ledgers e) = None \/ skipped (e_frozen e) lid = true).
      { destruct (get lid (e_ledgers e)) as [v|] eqn:GL; [|auto]. right. unfold skipped.
        destruct (Nat.eqb_spec lid AUDIT_LEDGER_ID); [reflexivity|]. destruct (NL v). auto. }
      destruct SK as [->|SK]; [destruct l; auto|]. rewrite SK. destruct (get lid (e_ledgers e)); destruct l; auto.
    - intros lid FR. destruct (F lid) as [F1 _], (K lid) as [_ K2]. rewrite F1.
      assert (SK : skipped (e_frozen e) lid = true).
      { unfold skipped. destruct (get lid (e_frozen e)); [apply orb_true_r|contradiction]. }
      rewrite SK in K2. assert (K3 : get lid (a_root a1) = None) by (rewrite K2; destruct (get lid (e_ledgers e)); reflexivity).
      rewrite K3. destruct l as [y|]; [|reflexivity]. destruct (get lid (e_frozen e)); [reflexivity|contradiction].
  Qed.

  Definition own_view (x : env * batch) : nat := match b_orig (snd x) with Some v => v | None => b_view (snd x) end.

  (** ** Primaries and node registry *)
  Definition GoodNames (l : list (env * batch)) (A : list adata) : Prop := forall i x a, nth_error l i = Some x -> nth_error A i = Some a ->
    (forall ps, b_prim (snd x) = Some ps -> stands_for a_prim A i ps) /\ (b_prim (snd x) = None -> a_prim a = None) /\
    (forall ps, b_reg (snd x) = Some ps -> stands_for a_reg A i ps) /\ (b_reg (snd x) = None -> a_reg a = None).

  Lemma names_built l A : Built l A -> Forall proper l -> GoodNames l A.
  Proof.
    intros Bt. induction Bt as [|l A x a Bt IH E]; intros PR.
    - intros i x a E. destruct i; discriminate.
    - apply Forall_app in PR as [PR1 PR2]. inversion PR2 as [|? ? PX _]; subst. specialize (IH PR1).
      assert (LN := built_length _ _ Bt).
      destruct (create_fields _ _ _ E PX) as (_ & _ & _ & FP & FR & _). clear E.
      intros i y c Ey Ec. apply nth_snoc in Ey as [[L Ey]|[-> ->]].
      + rewrite nth_error_app1 in Ec by lia. destruct (IH _ _ _ Ey Ec) as (I1 & I2 & I3 & I4).
        split; [intros ps Q; apply stands_app, I1, Q|]. split; [exact I2|]. split; [intros ps Q; apply stands_app, I3, Q|exact I4].
      + rewrite <- LN in Ec |- *. rewrite nth_snoc_last in Ec. injection Ec as <-.
        destruct A as [|l0 A _] using rev_ind.
        * cbn [lastA rev] in FP, FR. cbn [fill_primaries] in FP. injection FP as FP. cbn [app length].
          split; [intros ps Q; rewrite Q in FP; apply (stands_new a_prim []); auto|].
          split; [intros Q; rewrite Q in FP; auto|].
          unfold fill_node_reg in FR. split; intros; [rewrite H in FR|rewrite H in FR]; injection FR as FR; [apply (stands_new a_reg []); auto|auto].
        * rewrite lastA_snoc in FP, FR. rewrite app_length in LN. cbn [length] in LN.
          destruct (nth_error l (length A)) as [z|] eqn:Ez; [|apply nth_error_None in Ez; lia].
          destruct (IH _ z l0 Ez (nth_snoc_last A l0)) as (J1 & J2 & J3 & J4).
          assert (LK : forall (f : adata -> option (fld (list nat))) n ps, stands_for f (A ++ [l0]) (length A) ps -> f l0 = Some (Back n) ->
            n < length (A ++ [l0]) /\ exists a', look (A ++ [l0]) (S (length A) - n) = Ok a' /\ f a' = Some (Val ps)).
          { intros f n ps (y & Y1 & Y2) Fn. rewrite nth_snoc_last in Y1. injection Y1 as <-.
            destruct Y2 as [Y2|(m & a' & Y2 & Y3 & Y4 & Y5)]; [congruence|]. assert (m = n) by congruence. subst m.
            rewrite app_length. cbn [length]. split; [lia|]. exists a'. split; [|exact Y5].
            replace (S (length A) - n) with (S (length A - n)) by lia. cbn [look]. rewrite Y4. reflexivity. }
          assert (NX : forall (f : adata -> option (fld (list nat))) ps x0, stands_for f (A ++ [l0]) (length A) ps -> f l0 = Some x0 ->
            f a = Some (next_fld x0) -> stands_for f ((A ++ [l0]) ++ [a]) (length (A ++ [l0])) ps).
          { intros. eapply stands_next; eauto. }
          unfold fill_primaries in FP. unfold fill_node_reg in FR.
          split; [|split; [|split]].
          -- intros ps Q. rewrite Q in FP. destruct (a_prim l0) as [[qs|n]|] eqn:AP; [| |discriminate].
             ++ injection FP as FP. destruct (names_eq_dec qs ps) as [->|]; [|apply stands_new; auto].
                apply (NX a_prim ps (Val ps)); [|exact AP|auto]. exists l0. split; [apply nth_snoc_last|auto].
             ++ destruct (n <? length (A ++ [l0])); [|discriminate].
                destruct (b_prim (snd z)) as [zs|]; [|specialize (J2 eq_refl); discriminate J2].
                destruct (LK a_prim n zs (J1 _ eq_refl) AP) as (_ & a' & L1 & L2). rewrite L1 in FP. cbn [bind] in FP. rewrite L2 in FP.
                injection FP as FP. destruct (names_eq_dec zs ps) as [->|]; [|apply stands_new; auto].
                apply (NX a_prim ps (Back n)); auto.
          -- intros Q. rewrite Q in FP. destruct (a_prim l0) as [[qs|n]|] eqn:AP; [congruence| |discriminate].
             destruct (n <? length (A ++ [l0])); [|discriminate].
             destruct (look (A ++ [l0]) (S (length A) - n)) as [a'|]; [|discriminate]. cbn [bind] in FP.
             destruct (a_prim a') as [[?|?]|]; [congruence|discriminate|discriminate].
          -- intros ps Q. rewrite Q in FR. destruct (a_reg l0) as [[qs|n]|] eqn:AP.
             ++ injection FR as FR. destruct (names_eq_dec qs ps) as [->|]; [|apply stands_new; auto].
                apply (NX a_reg ps (Val ps)); [|exact AP|auto]. exists l0. split; [apply nth_snoc_last|auto].
             ++ destruct (b_reg (snd z)) as [zs|]; [|specialize (J4 eq_refl); discriminate J4].
                destruct (LK a_reg n zs (J3 _ eq_refl) AP) as (LT & a' & L1 & L2).
                destruct (Nat.ltb_spec n (length (A ++ [l0]))); [|lia].
                rewrite L1 in FR. cbn [bind] in FR. rewrite L2 in FR.
                injection FR as FR. destruct (names_eq_dec zs ps) as [->|]; [|apply stands_new; auto].
                apply (NX a_reg ps (Back n)); auto.
             ++ injection FR as FR. apply stands_new; auto.
          -- intros Q. rewrite Q in FR. congruence.
  Qed.

  (** ** Ledger roots *)
  Lemma live_dec lid x : (exists v, live lid x v) \/ forall v, ~ live lid x v.
  Proof.
    unfold live. destruct (get lid (e_ledgers (fst x))) as [v|] eqn:G; [|right; intros v (Q & _); discriminate].
    destruct (get lid (e_frozen (fst x))) as [n|] eqn:F; [right; intros w (_ & Q & _); discriminate|].
    destruct (Nat.eq_dec lid AUDIT_LEDGER_ID) as [D|D]; [right; intros w (_ & _ & Q); contradiction|]. left. exists v. auto.
  Qed.
  Lemma frozen_dec lid x : frozen lid x \/ ~ frozen lid x.
  Proof. unfold frozen. destruct (get lid (e_frozen (fst x))); [left; discriminate|right; auto]. Qed.
  Lemma live_not_frozen lid x v : live lid x v -> ~ frozen lid x.
  Proof. intros (_ & Q & _) F. exact (F Q). Qed.

  Definition GoodRoots (l : list (env * batch)) (A : list adata) : Prop := forall i x a, nth_error l i = Some x -> nth_error A i = Some a -> forall lid,
    (forall v, live lid x v -> get lid (a_size a) = Some (lv_size v) /\
       (get lid (a_root a) <> None -> stands_for (ledger_root_of lid) A i (root (lv_txns v)))) /\
    ((forall v, ~ live lid x v) -> ~ frozen lid x -> get lid (a_size a) = None /\ get lid (a_root a) = None) /\
    (frozen lid x -> get lid (a_root a) <> None -> exists j y w, j < i /\ nth_error l j = Some y /\ live lid y w /\
       (forall k z, j < k <= i -> nth_error l k = Some z -> frozen lid z) /\
       stands_for (ledger_root_of lid) A i (root (lv_txns w))).

  Lemma grows_init l x : grows (l ++ [x]) -> grows l.
  Proof. intros G i j a b lid v w L Ea Eb. apply (G i j a b lid v w L); apply nth_snoc_old; assumption. Qed.
  Lemma stays_init l x : stays_frozen (l ++ [x]) -> stays_frozen l.
  Proof. intros G i j a b lid L Ea Eb. apply (G i j a b lid L); apply nth_snoc_old; assumption. Qed.

  Lemma roots_built l A : Built l A -> Forall proper l -> grows l -> stays_frozen l -> GoodRoots l A.
  Proof.
    intros Bt. induction Bt as [|l A x a Bt IH E]; intros PR GR SF.
    - intros i x a E. destruct i; discriminate.
    - apply Forall_app in PR as [PR1 PR2]. inversion PR2 as [|? ? PX _]; subst.
      specialize (IH PR1 (grows_init _ _ GR) (stays_init _ _ SF)).
      assert (LN := built_length _ _ Bt).
      destruct (create_fields _ _ _ E PX) as (_ & _ & _ & _ & _ & FL & FN & FF). clear E.
      intros i y c Ey Ec lid. apply nth_snoc in Ey as [[L Ey]|[-> ->]].
      + rewrite nth_error_app1 in Ec by lia. destruct (IH _ _ _ Ey Ec lid) as (I1 & I2 & I3).
        split; [|split; [exact I2|]].
        * intros v Lv. destruct (I1 v Lv) as [J1 J2]. split; [exact J1|]. intros Q. apply stands_app, J2, Q.
        * intros Fr Q. destruct (I3 Fr Q) as (j & z & w & J1 & J2 & J3 & J4 & J5). exists j, z, w. split; [exact J1|].
          split; [apply nth_snoc_old, J2|]. split; [exact J3|]. split; [|apply stands_app, J5].
          intros k u Hk Eu. apply (J4 k u Hk). rewrite nth_error_app1 in Eu by lia. exact Eu.
      + rewrite <- LN in Ec |- *. rewrite nth_snoc_last in Ec. injection Ec as <-.
        split; [|split; [intros NL NF; exact (FN lid NL NF)|]].
        * intros v Lv. destruct (FL lid v Lv) as [F1 F2]. split; [exact F1|]. rewrite F2. intros NE. unfold root_rule in F2, NE.
          destruct (lid =? b_ledger (snd x)); [apply stands_new; exact F2|].
          destruct A as [|l0 A _] using rev_ind.
          { cbn [lastA rev option_map] in F2, NE. destruct (negb (lv_size v =? 0)); [apply stands_new; exact F2|congruence]. }
          rewrite lastA_snoc in F2, NE. cbn [option_map snd] in F2, NE. rewrite app_length in LN. cbn [length] in LN.
          destruct (nth_error l (length A)) as [z|] eqn:Ez; [|apply nth_error_None in Ez; lia].
          destruct (IH _ z l0 Ez (nth_snoc_last A l0) lid) as (I1 & I2 & _).
          assert (REP : get lid (a_root a) = repeated lid l0 -> repeated lid l0 <> None ->
             (forall n0, get lid (a_size l0) = Some n0 -> lv_size v <= n0) ->
             stands_for (ledger_root_of lid) ((A ++ [l0]) ++ [a]) (length (A ++ [l0])) (root (lv_txns v))).
          { unfold repeated. intros R1 R2 R3. destruct (get lid (a_root l0)) as [f|] eqn:GL; [|contradiction]. cbn [option_map] in R1.
            assert (NZ : ~ frozen lid z).
            { intros Fz. apply (live_not_frozen _ _ _ Lv). apply (SF (length A) (length l) z x lid); [lia| | |exact Fz];
                [apply nth_snoc_old, Ez|apply nth_snoc_last]. }
            destruct (live_dec lid z) as [[w Lw]|NL]; [|destruct (I2 NL NZ); congruence].
            destruct (I1 w Lw) as [S1 S2].
            destruct (GR (length A) (length l) z x lid w v) as [more M]; [lia|apply nth_snoc_old, Ez|apply nth_snoc_last|exact Lw|exact Lv|].
            assert (SZ := R3 _ S1). unfold lv_size in SZ. rewrite M, app_length in SZ. assert (more = []) by (destruct more; [reflexivity|cbn in SZ; lia]).
            subst more. rewrite app_nil_r in M. rewrite M.
            apply (stands_next (ledger_root_of lid) A l0 a f); [apply S2; congruence|exact GL|exact R1]. }
          destruct (get lid (a_size l0)) as [n0|].
          -- destruct (Nat.ltb_spec n0 (lv_size v)); [apply stands_new; exact F2|]. apply REP; [exact F2|exact NE|].
             intros n1 Q. injection Q as <-. exact H.
          -- destruct (negb (lv_unc v =? 0)); [apply stands_new; exact F2|]. apply REP; [exact F2|exact NE|]. intros n1 Q. discriminate.
        * intros Fr NE. rewrite (FF lid Fr) in NE. assert (FQ := FF lid Fr).
          destruct A as [|l0 A _] using rev_ind; [cbn [lastA rev option_map] in NE; congruence|].
          rewrite lastA_snoc in NE, FQ. cbn [option_map snd] in NE, FQ. rewrite app_length in LN. cbn [length] in LN.
          destruct (get lid (a_root l0)) as [[r|m]|] eqn:GL; [congruence| |congruence].
          destruct (nth_error l (length A)) as [z|] eqn:Ez; [|apply nth_error_None in Ez; lia].
          destruct (IH _ z l0 Ez (nth_snoc_last A l0) lid) as (I1 & I2 & I3).
          destruct (frozen_dec lid z) as [Fz|NZ].
          -- destruct (I3 Fz ltac:(congruence)) as (j & y & w & J1 & J2 & J3 & J4 & J5).
             exists j, y, w. rewrite app_length. cbn [length]. split; [lia|]. split; [apply nth_snoc_old, J2|]. split; [exact J3|]. split.
             ++ intros k u Hk Eu. apply nth_snoc in Eu as [[L Eu]|[-> ->]]; [|exact Fr]. apply (J4 k u); [lia|exact Eu].
             ++ replace (length A + 1) with (length (A ++ [l0])) by (rewrite app_length; cbn; lia).
                apply (stands_next (ledger_root_of lid) A l0 a (Back m)); [exact J5|exact GL|exact FQ].
          -- destruct (live_dec lid z) as [[w Lw]|NL]; [|destruct (I2 NL NZ); congruence].
             destruct (I1 w Lw) as [_ S2]. exists (length A), z, w. rewrite app_length. cbn [length]. split; [lia|].
             split; [apply nth_snoc_old, Ez|]. split; [exact Lw|]. split.
             ++ intros k u Hk Eu. apply nth_snoc in Eu as [[L Eu]|[-> ->]]; [lia|exact Fr].
             ++ replace (length A + 1) with (length (A ++ [l0])) by (rewrite app_length; cbn; lia).
                apply (stands_next (ledger_root_of lid) A l0 a (Back m)); [apply S2; congruence|exact GL|exact FQ].
  Qed.

  (** A ledger that has taken part in every audited batch and is not empty has a root in the
      audit transaction. *)
  Lemma roots_present l A : Built l A -> Forall proper l -> grows l -> forall i x a lid v, nth_error l i = Some x -> nth_error A i = Some a ->
    live lid x v -> (forall k y, k < i -> nth_error l k = Some y -> exists w, live lid y w) -> lv_txns v <> [] ->
    get lid (a_root a) <> None.
  Proof.
    intros Bt. induction Bt as [|l A x a Bt IH E]; intros PR GR i y c lid v Ey Ec Lv Al NE; [destruct i; discriminate|].
    apply Forall_app in PR as [PR1 PR2]. inversion PR2 as [|? ? PX _]; subst.
    specialize (IH PR1 (grows_init _ _ GR)). assert (LN := built_length _ _ Bt).
    destruct (create_fields _ _ _ E PX) as (_ & _ & _ & _ & _ & FL & _).
    apply nth_snoc in Ey as [[L Ey]|[-> ->]].
    - rewrite nth_error_app1 in Ec by lia. apply (IH i y c lid v); auto. intros k u Hk Eu. apply (Al k u Hk). apply nth_snoc_old, Eu.
    - rewrite <- LN, nth_snoc_last in Ec. injection Ec as <-. destruct (FL lid v Lv) as [_ F2]. rewrite F2. unfold root_rule.
      destruct (lid =? b_ledger (snd x)); [discriminate|].
      destruct A as [|l0 A _] using rev_ind.
      + cbn [lastA rev option_map]. unfold lv_size. destruct (lv_txns v); [congruence|]. discriminate.
      + rewrite lastA_snoc. cbn [option_map snd]. rewrite app_length in LN. cbn [length] in LN.
        destruct (nth_error l (length A)) as [z|] eqn:Ez; [|apply nth_error_None in Ez; lia].
        destruct (Al (length A) z) as [w Lw]; [lia|apply nth_snoc_old, Ez|].
        destruct (GR (length A) (length l) z x lid w v) as [more M]; [lia|apply nth_snoc_old, Ez|apply nth_snoc_last|exact Lw|exact Lv|].
        assert (SZ : get lid (a_size l0) = Some (lv_size w)).
        { destruct (built_snoc_inv l x (A ++ [l0] ++ [a])) as (A' & a' & EA & _ & _); [rewrite app_assoc; constructor; assumption|].
          clear -Bt PR1 Ez Lw LN. destruct l as [|x' l _] using rev_ind; [cbn in LN; lia|].
          apply built_snoc_inv in Bt as (A' & a' & EA & B' & C'). apply app_inj_tail in EA as [<- <-].
          apply Forall_app in PR1 as [_ P]. inversion P; subst. rewrite app_length in LN. cbn in LN.
          replace (length A) with (length l) in Ez by lia. rewrite nth_snoc_last in Ez. injection Ez as <-.
          destruct (create_fields _ _ _ C' H1) as (_ & _ & _ & _ & _ & FL & _). apply (FL lid w Lw). }
        rewrite SZ. destruct (Nat.ltb_spec (lv_size w) (lv_size v)) as [|GE]; [discriminate|].
        unfold repeated. unfold lv_size in GE. rewrite M, app_length in GE. assert (more = []) by (destruct more; [reflexivity|cbn in GE; lia]).
        subst more. rewrite app_nil_r in M.
        assert (Q : get lid (a_root l0) <> None).
        { apply (IH (length A) z l0 lid w Ez (nth_snoc_last A l0) Lw); [|congruence].
          intros k u Hk Eu. apply (Al k u); [lia|apply nth_snoc_old, Eu]. }
        destruct (get lid (a_root l0)); [discriminate|contradiction].
  Qed.

  (** [create] raises nothing if each batch has primaries and each live ledger a state. *)
  Definition equipped (x : env * batch) : Prop :=
    b_prim (snd x) <> None /\ forall lid v, live lid x v -> lv_state v <> None.

  Lemma fill_ledgers_ok ls fr last b : (forall lid v, In (lid, v) ls -> skipped fr lid = false -> lv_state v <> None) ->
    forall a, exists a', fill_ledgers root ls fr last b a = Ok a'.
  Proof.
    induction ls as [|(lid, v) ls IH]; intros HS a; cbn [fill_ledgers]; [eauto|].
    assert (IH' := IH (fun k w I => HS k w (or_intror I))). fold (skipped fr lid). destruct (skipped fr lid) eqn:SK; [apply IH'|].
    assert (W : lv_state v <> None) by (apply (HS lid v); [left; reflexivity|exact SK]).
    assert (F : exists a', fill_ledger_root_hash root lid v last b (set_size lid (lv_size v) a) = Ok a').
    { unfold fill_ledger_root_hash. assert (WR : forall x, exists a', write_roots root lid v x = Ok a').
      { intros x. unfold write_roots. destruct (lv_state v); [eauto|contradiction]. }
      destruct (lid =? b_ledger b); [apply WR|]. destruct last as [l|].
      - destruct (get lid (a_size l)) as [n0|]; [destruct (n0 <? lv_size v)|destruct (negb (lv_unc v =? 0))]; try apply WR;
          destruct (get lid (a_root l)) as [[r|n]|]; eauto.
      - destruct (negb (lv_size v =? 0)); [apply WR|eauto]. }
    destruct F as [a' ->]. cbn [bind]. apply IH'.
  Qed.

  Lemma create_ok l A x : Built l A -> Forall proper l -> (forall y, In y l -> b_prim (snd y) <> None) -> proper x -> equipped x ->
    exists a, createL A x = Ok a.
  Proof.
    intros Bt PR BP PX [EP ES]. assert (GN := names_built _ _ Bt PR). assert (LN := built_length _ _ Bt).
    unfold createL, create. set (a0 := mkA _ _ _ _ _ _ _ _).
    destruct (fill_ledgers_ok (e_ledgers (fst x)) (e_frozen (fst x)) (option_map snd (lastA A)) (snd x)) with (a := a0) as [a1 E1].
    { intros lid v I SK. apply (ES lid v). unfold skipped in SK. apply orb_false_iff in SK as [S1 S2]. split; [|split].
      - apply in_get; [apply PX|exact I].
      - destruct (get lid (e_frozen (fst x))); [discriminate|reflexivity].
      - apply Nat.eqb_neq, S1. }
    rewrite E1. cbn [bind].
    assert (E2 : exists ps, fill_primaries (lastA A) (length A) (look A) (b_prim (snd x)) = Ok ps).
    { destruct (b_prim (snd x)) as [cur|]; [|contradiction].
      destruct A as [|l0 A _] using rev_ind; [cbn; eauto|]. rewrite lastA_snoc. rewrite app_length in LN. cbn in LN.
      destruct (nth_error l (length A)) as [z|] eqn:Ez; [|apply nth_error_None in Ez; lia].
      destruct (GN _ z l0 Ez (nth_snoc_last A l0)) as (J1 & _).
      assert (Q := BP z (nth_error_In _ _ Ez)). destruct (b_prim (snd z)) as [zs|]; [|contradiction].
      destruct (J1 zs eq_refl) as (y & Y1 & Y2). rewrite nth_snoc_last in Y1. injection Y1 as <-. unfold fill_primaries.
      destruct Y2 as [->|(m & a' & -> & Y3 & Y4 & Y5)]; [eauto|].
      destruct (Nat.ltb_spec m (length (A ++ [l0]))) as [|GE]; [|rewrite app_length in GE; cbn in GE; lia].
      replace (S (length A) - m) with (S (length A - m)) by lia. cbn [look]. rewrite Y4. cbn [bind]. rewrite Y5. eauto. }
    destruct E2 as [ps ->]. cbn [bind].
    assert (E3 : exists ps, fill_node_reg (lastA A) (length A) (look A) (b_reg (snd x)) = Ok ps).
    { unfold fill_node_reg. destruct (b_reg (snd x)) as [cur|]; [|eauto].
      destruct A as [|l0 A _] using rev_ind; [cbn; eauto|]. rewrite lastA_snoc. rewrite app_length in LN. cbn in LN.
      destruct (nth_error l (length A)) as [z|] eqn:Ez; [|apply nth_error_None in Ez; lia].
      destruct (GN _ z l0 Ez (nth_snoc_last A l0)) as (_ & _ & J3 & J4).
      destruct (b_reg (snd z)) as [zs|]; [|rewrite J4 by reflexivity; eauto].
      destruct (J3 zs eq_refl) as (y & Y1 & Y2). rewrite nth_snoc_last in Y1. injection Y1 as <-.
      destruct Y2 as [->|(m & a' & -> & Y3 & Y4 & Y5)]; [eauto|].
      destruct (Nat.ltb_spec m (length (A ++ [l0]))) as [|GE]; [|rewrite app_length in GE; cbn in GE; lia].
      replace (S (length A) - m) with (S (length A - m)) by lia. cbn [look]. rewrite Y4. cbn [bind]. rewrite Y5. eauto. }
    destruct E3 as [rg ->]. cbn [bind]. eauto.
  Qed.
End Audit.
