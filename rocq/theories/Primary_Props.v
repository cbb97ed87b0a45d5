(** Property C28: primary selection is total, deterministic, distinct and fair. *)
From Coq Require Import List Arith Bool Lia.
From Verif Require Import Base Primary_Model.
Import ListNotations.
Local Open Scope res_scope.

Section Primary.
  Context {A : Type} (eqd : forall x y : A, {x = y} + {x <> y}).
  Notation backup_loop := (backup_loop eqd).
  Notation select_primaries := (select_primaries eqd).

  Lemma pick_ok (l : list A) k : l <> [] -> exists x, pick l k = Ok x /\ nth_error l (k mod length l) = Some x.
  Proof.
    intros NE. unfold pick. destruct l as [|a l]; [congruence|].
    pose proof (Nat.mod_upper_bound k (length (a :: l)) ltac:(simpl; lia)) as B.
    destruct (nth_error (a :: l) (k mod length (a :: l))) as [x|] eqn:E; [eauto|].
    apply nth_error_None in E. lia.
  Qed.

  Lemma mod_inj n a b : 0 < n -> a <= b < a + n -> a mod n = b mod n -> a = b.
  Proof.
    intros Hn R E. pose proof (Nat.div_mod a n ltac:(lia)). pose proof (Nat.div_mod b n ltac:(lia)).
    assert (n * (b / n) - n * (a / n) < n) by lia.
    assert (a / n <= b / n) by (apply Nat.div_le_mono; lia).
    assert (b / n = a / n) by nia. nia.
  Qed.

  Lemma pick_inj (l : list A) a b x : NoDup l -> l <> [] -> pick l a = Ok x -> pick l b = Ok x ->
    a <= b < a + length l -> a = b.
  Proof.
    intros ND NE Ea Eb R. destruct (pick_ok l a NE) as (y & E1 & N1), (pick_ok l b NE) as (z & E2 & N2).
    assert (y = x) by congruence. assert (z = x) by congruence. subst.
    assert (LN : 0 < length l) by (destruct l; [congruence|simpl; lia]).
    apply (mod_inj (length l)); auto. apply (proj1 (NoDup_nth_error l) ND).
    - apply Nat.mod_upper_bound. lia.
    - congruence.
  Qed.

  (** After the iterations [1 .. i-1], with [i <= length l], the accumulated primaries are the
      picked names different from the master. *)
  Lemma loop_ok (l : list A) v m : NoDup l -> l <> [] -> forall fuel count i acc,
    count < length l -> 1 <= i -> i <= length acc + 2 -> i + (count - length acc) <= count + 2 ->
    length acc <= count -> count - length acc + 1 <= fuel + (i - 1 - length acc) ->
    i - 1 <= length acc + 1 -> length acc <= i - 1 ->
    (forall x, In x acc -> exists j, 1 <= j < i /\ pick l (v + j) = Ok x) ->
    NoDup acc -> (forall x, In x acc -> x <> m) ->
    (i - 1 = length acc + 1 -> exists j, 1 <= j < i /\ pick l (v + j) = Ok m) ->
    exists r, backup_loop fuel v l count m i acc = Ok r /\ length r = count /\ NoDup r /\
      (forall x, In x r -> x <> m /\ exists j, 1 <= j <= count + 1 /\ pick l (v + j) = Ok x).
  Proof.
    intros ND NE. induction fuel as [|fuel IH]; intros count i acc Hc Hi H1 H2 H3 H4 H5 H6 PA NA MA MM.
    - assert (count = length acc) by lia. cbn [Primary_Model.backup_loop].
      destruct (Nat.leb_spec count (length acc)); [|lia].
      exists acc. split; [reflexivity|]. split; [auto|]. split; [auto|].
      intros x Hx. split; auto. destruct (PA x Hx) as (j & R & P). exists j. split; auto. lia.
    - cbn [Primary_Model.backup_loop]. destruct (Nat.leb_spec count (length acc)) as [L|L].
      { exists acc. split; [reflexivity|]. split; [lia|]. split; [auto|].
        intros x Hx. split; auto. destruct (PA x Hx) as (j & R & P). exists j. split; auto. lia. }
      destruct (pick_ok l (v + i) NE) as (p & E & _). rewrite E. cbn [bind].
      assert (FR : forall x j, 1 <= j < i -> pick l (v + j) = Ok x -> x <> p).
      { intros x j R P ->. pose proof (pick_inj l (v + j) (v + i) p ND NE P E ltac:(lia)). lia. }
      destruct (eqd p m) as [->|Npm].
      + assert (i - 1 = length acc).
        { destruct (Nat.eq_dec (i - 1) (length acc + 1)) as [X|X]; [|lia]. destruct (MM X) as (j & R & P).
          exfalso. eapply FR; eauto. }
        apply IH; auto; try lia.
        * intros x Hx. destruct (PA x Hx) as (j & R & P). exists j. split; auto. lia.
        * intros _. exists i. split; auto. lia.
      + apply IH; rewrite ?app_length; cbn [length]; auto; try lia.
        * intros x Hx. apply in_app_or in Hx as [Hx|[->|[]]].
          -- destruct (PA x Hx) as (j & R & P). exists j. split; auto. lia.
          -- exists i. split; auto. lia.
        * apply NoDup_rev in NA. apply NoDup_rev in NA. rewrite rev_involutive in NA.
          clear -NA PA FR. assert (NI : ~ In p acc).
          { intros Hp. destruct (PA p Hp) as (j & R & P). eapply FR; eauto. }
          clear -NA NI. induction acc as [|a acc IHa]; simpl; [repeat constructor; auto|].
          inversion NA; subst. constructor.
          -- rewrite in_app_iff. simpl. intros [|[|[]]]; auto. subst. apply NI. left. auto.
          -- apply IHa; auto. intros X. apply NI. right. auto.
        * intros x Hx. apply in_app_or in Hx as [Hx|[->|[]]]; auto.
        * intros X. destruct (MM ltac:(lia)) as (j & R & P). exists j. split; auto. lia.
  Qed.

  Lemma backups_ok (l : list A) v m fuel : NoDup l -> l <> [] -> (length l - 1) / 3 + 1 <= fuel ->
    exists r, select_backup_primaries eqd fuel v l m = Ok r /\ length r = (length l - 1) / 3 /\
      NoDup r /\ (forall x, In x r -> x <> m /\ exists j, 1 <= j <= (length l - 1) / 3 + 1 /\ pick l (v + j) = Ok x).
  Proof.
    intros ND NE F. assert (LN : 0 < length l) by (destruct l; [congruence|simpl; lia]).
    assert ((length l - 1) / 3 < length l).
    { pose proof (Nat.div_mod (length l - 1) 3 ltac:(lia)). lia. }
    apply loop_ok; cbn [length]; auto; try lia; try (intros; lia); try apply NoDup_nil; intros x [].
  Qed.

  (** For distinct validators selection terminates (within f+1 iterations of the loop) and
      yields f+1 pairwise distinct validators, the first of them validators[view_no mod n]. *)
  Theorem C28_total_distinct : forall (validators : list A) view_no fuel,
    NoDup validators -> validators <> [] -> (length validators - 1) / 3 + 1 <= fuel ->
    exists master backups,
      select_primaries fuel validators view_no = Ok (master :: backups) /\
      nth_error validators (view_no mod length validators) = Some master /\
      length (master :: backups) = (length validators - 1) / 3 + 1 /\
      NoDup (master :: backups) /\ incl (master :: backups) validators.
  Proof.
    intros l v fuel ND NE F. unfold Primary_Model.select_primaries, select_master_primary.
    destruct (pick_ok l v NE) as (m & Em & Nm). rewrite Em. cbn [bind].
    destruct (backups_ok l v m fuel ND NE F) as (r & E & L & NR & P). rewrite E. cbn [bind].
    exists m, r. split; auto. split; auto. split; [cbn [length]; lia|]. split.
    - constructor; auto. intros X. apply (P m X). reflexivity.
    - intros x [<-|Hx]; [eapply nth_error_In; eauto|]. destruct (P x Hx) as (_ & j & _ & E').
      destruct (pick_ok l (v + j) NE) as (y & E1 & N1). assert (y = x) by congruence. subst. eapply nth_error_In; eauto.
  Qed.

  (** Without enough fuel nothing changes: the result does not depend on the bound. *)
  Theorem C28_fuel_irrelevant : forall (validators : list A) view_no f1 f2 r,
    f1 <= f2 -> select_primaries f1 validators view_no = Ok r -> select_primaries f2 validators view_no = Ok r.
  Proof.
    intros l v f1 f2 r L. unfold Primary_Model.select_primaries. destruct (select_master_primary l v) as [m|]; [|auto]. cbn [bind].
    unfold select_backup_primaries, select_backup_primaries_round_robin.
    assert (G : forall f1 f2 c i acc r, f1 <= f2 -> backup_loop f1 v l c m i acc = Ok r -> backup_loop f2 v l c m i acc = Ok r).
    { clear. induction f1 as [|f1 IH]; intros [|f2] c i acc r L E; cbn [Primary_Model.backup_loop] in *; try lia; auto.
      - destruct (c <=? length acc); [auto|discriminate].
      - destruct (c <=? length acc); [auto|]. destruct (pick l (v + i)); [|discriminate]. cbn [bind] in *.
        eapply IH; [|exact E]. lia. }
    destruct (backup_loop f1 v l ((length l - 1) / 3) m 1 []) as [bs|] eqn:E; [|discriminate]. cbn [bind].
    rewrite (G _ _ _ _ _ _ L E). auto.
  Qed.

  (** Over any n consecutive views every validator is master primary exactly once. *)
  Theorem C28_fair : forall (validators : list A) start x,
    NoDup validators -> In x validators ->
    exists view_no, start <= view_no < start + length validators /\
      select_master_primary validators view_no = Ok x /\
      forall view', start <= view' < start + length validators ->
        select_master_primary validators view' = Ok x -> view' = view_no.
  Proof.
    intros l start x ND Hx. assert (NE : l <> []) by (destruct l; [destruct Hx|discriminate]).
    set (n := length l). assert (LN : 0 < n) by (unfold n; destruct l; [congruence|simpl; lia]).
    apply In_nth_error in Hx as (k & Hk). assert (Kn : k < n) by (apply nth_error_Some; congruence).
    set (view := start + (k + (n - start mod n)) mod n).
    assert (Vm : view mod n = k).
    { unfold view. rewrite Nat.add_mod_idemp_r by lia.
      pose proof (Nat.mod_upper_bound start n ltac:(lia)). pose proof (Nat.div_mod start n ltac:(lia)).
      replace (start + (k + (n - start mod n))) with (k + (start / n + 1) * n) by nia.
      rewrite Nat.mod_add by lia. apply Nat.mod_small. auto. }
    pose proof (Nat.mod_upper_bound (k + (n - start mod n)) n ltac:(lia)).
    assert (PV : pick l view = Ok x).
    { destruct (pick_ok l view NE) as (y & E & N). fold n in N. rewrite Vm in N. congruence. }
    exists view. split; [unfold view; lia|]. split; [exact PV|].
    intros view' R E. unfold select_master_primary in E.
    destruct (le_lt_dec view view').
    - symmetry. apply (pick_inj l view view' x); auto. fold n. unfold view in *. lia.
    - apply (pick_inj l view' view x); auto. fold n. unfold view in *. lia.
  Qed.

  (** ** Selection from the node registry *)
  (** The view whose registry decides about view [view_no]: views below it (view 0 for
      views 0 and 1) that have a registry. *)
  Definition deciding (view_no w : nat) : Prop := w < view_no \/ (view_no = 0 /\ w = 0).

  Lemma search_ok (reg : node_reg (A := A)) v : search_down reg v <= v /\
    (reg (search_down reg v) <> None \/ search_down reg v = 0) /\
    (forall w, search_down reg v < w <= v -> reg w = None).
  Proof.
    induction v as [|v IH]; cbn [search_down].
    - repeat split; auto. intros w. lia.
    - destruct (reg (S v)) as [l|] eqn:E.
      + split; auto. split; [left; rewrite E; discriminate|]. intros w. lia.
      + destruct IH as (I1 & I2 & I3). split; [lia|]. split; [auto|]. intros w Hw.
        destruct (Nat.eq_dec w (S v)) as [->|]; auto. apply I3. lia.
  Qed.

  (** The master primary of a view is taken from the registry of the last earlier view that
      has one; it is an error if there is none. *)
  Theorem C28_registry_master : forall (reg : node_reg (A := A)) view_no,
    (forall w nodes, deciding view_no w -> reg w = Some nodes -> nodes <> [] ->
       (forall w', deciding view_no w' -> w < w' -> reg w' = None) ->
       exists m, do_select_master_primary view_no reg = Ok m /\
         nth_error nodes (view_no mod length nodes) = Some m) /\
    ((forall w, deciding view_no w -> reg w = None) -> do_select_master_primary view_no reg = Err LogicError).
  Proof.
    intros reg v. unfold do_select_master_primary.
    set (start := if 1 <? v then v - 1 else 0).
    assert (ST : forall w, w <= start <-> deciding v w).
    { intros w. unfold start, deciding. destruct (Nat.ltb_spec 1 v); lia. }
    destruct (search_ok reg start) as (S1 & S2 & S3). split.
    - intros w nodes D R NE M.
      assert (E : search_down reg start = w).
      { destruct (Nat.lt_trichotomy (search_down reg start) w) as [X|[X|X]]; auto.
        - rewrite (S3 w) in R; [discriminate|]. apply ST in D. lia.
        - destruct S2 as [S2|S2]; [|lia]. exfalso. apply S2. apply M; auto. apply ST. auto. }
      rewrite E, R. apply pick_ok. auto.
    - intros N. rewrite N; auto. apply ST. auto.
  Qed.

  (** Nodes whose registries agree on the views before [view_no] (and view 0) select the same
      master primary for it. *)
  Theorem C28_registry_agreement : forall (reg1 reg2 : node_reg (A := A)) view_no,
    (forall w, deciding view_no w -> reg1 w = reg2 w) ->
    do_select_master_primary view_no reg1 = do_select_master_primary view_no reg2.
  Proof.
    intros reg1 reg2 v E. unfold do_select_master_primary.
    set (start := if 1 <? v then v - 1 else 0).
    assert (ST : forall w, w <= start -> reg1 w = reg2 w).
    { intros w L. apply E. unfold start, deciding in *. destruct (Nat.ltb_spec 1 v); lia. }
    assert (SD : search_down reg1 start = search_down reg2 start).
    { clearbody start. clear -ST. induction start as [|n IH]; auto. cbn [search_down].
      rewrite (ST (S n)) by lia. destruct (reg2 (S n)); auto. }
    rewrite <- SD, ST; auto. apply search_ok.
  Qed.

  (** Registry selection: f+1 distinct primaries, where n and f are those of the active nodes. *)
  Theorem C28_registry_distinct : forall (reg : node_reg (A := A)) active view_no m fuel,
    do_select_master_primary view_no reg = Ok m ->
    NoDup active -> active <> [] -> (length active - 1) / 3 + 1 <= fuel ->
    exists backups, reg_select_primaries eqd fuel view_no reg active = Ok (m :: backups) /\
      length (m :: backups) = (length active - 1) / 3 + 1 /\ NoDup (m :: backups) /\ incl backups active.
  Proof.
    intros reg l v m fuel Em ND NE F. unfold reg_select_primaries. rewrite Em. cbn [bind].
    destruct (backups_ok l v m fuel ND NE F) as (r & E & L & NR & P). rewrite E. cbn [bind].
    exists r. split; auto. split; [cbn [length]; lia|]. split.
    - constructor; auto. intros X. apply (P m X). reflexivity.
    - intros x Hx. destruct (P x Hx) as (_ & j & _ & E').
      destruct (pick_ok l (v + j) NE) as (y & E1 & N1). assert (y = x) by congruence. subst. eapply nth_error_In; eauto.
  Qed.
End Primary.

(** Seven validators: three primaries per view. *)
Example ex_C28 :
  select_primaries Nat.eq_dec 3 [10; 11; 12; 13; 14; 15; 16] 12 = Ok [15; 16; 10] /\
  reg_select_primaries Nat.eq_dec 3 5 (fun v => if v =? 2 then Some [20; 10; 11; 12; 13] else if v =? 0 then Some [1; 2] else None)
    [10; 11; 12; 13; 14; 15; 16] = Ok [20; 16; 10].
Proof. split; reflexivity. Qed.

(** Finding: with repeated names the selection loop need not end. *)
Theorem C28_duplicates_loop_forever_refuted :
  forall fuel, select_primaries Nat.eq_dec fuel [1; 1; 1; 1] 0 = Err OutOfFuel.
Proof.
  intros fuel. unfold select_primaries, select_master_primary, pick. simpl.
  unfold select_backup_primaries, select_backup_primaries_round_robin. simpl length.
  change ((4 - 1) / 3) with 1.
  assert (G : forall f i, backup_loop Nat.eq_dec f 0 [1; 1; 1; 1] 1 1 i [] = Err OutOfFuel).
  { induction f as [|f IH]; intros i; [reflexivity|]. cbn [backup_loop length Nat.leb].
    assert (E : pick [1; 1; 1; 1] (0 + i) = Ok 1).
    { destruct (pick_ok [1; 1; 1; 1] (0 + i) ltac:(discriminate)) as (x & E & N). rewrite E. f_equal.
      apply nth_error_In in N. simpl in N. intuition. }
    rewrite E. cbn [bind]. destruct (Nat.eq_dec 1 1); [apply IH|congruence]. }
  rewrite G. reflexivity.
Qed.

Print Assumptions C28_total_distinct.
Print Assumptions C28_fuel_irrelevant.
Print Assumptions C28_fair.
Print Assumptions C28_registry_master.
Print Assumptions C28_registry_agreement.
Print Assumptions C28_registry_distinct.
