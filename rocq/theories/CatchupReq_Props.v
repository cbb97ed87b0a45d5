(** Property C37: the requests for missing transactions cover them exactly once. *)
From Coq Require Import List Arith Bool Lia Permutation.
From Verif Require Import Base Dict.
From Verif Require Import CatchupReq_Model.
Import ListNotations.
Local Open Scope res_scope.

(** ** Specification *)
(** transaction [k] is one of those asked for *)
Definition asks (r : creq) (k : nat) : Prop := q_start r <= k <= q_end r.
(** the transactions from [a] to [b] are each asked of exactly one node, and nothing else is *)
Definition exactly_once (a b : nat) (reqs : list (nat * creq)) : Prop :=
  (forall k, a <= k <= b -> exists n r, In (n, r) reqs /\ asks r k /\
     forall n' r', In (n', r') reqs -> asks r' k -> n' = n /\ r' = r) /\
  (forall n r k, In (n, r) reqs -> asks r k -> a <= k <= b).
(** what a request may look like: not empty, and within what the node said it has *)
Definition fair (sizes : list (nat * nat)) (till : nat) (nr : nat * creq) : Prop :=
  q_start (snd nr) <= q_end (snd nr) /\ q_till (snd nr) = till /\
  exists s, In (fst nr, s) sizes /\ q_end (snd nr) <= s.

(** ** Lemmas *)
Lemma find_some sizes m i : find_node_idx sizes m = Some i ->
  exists n s, nth_error sizes i = Some (n, s) /\ m <= s.
Proof.
  revert i. induction sizes as [|(n, s) rest IH]; simpl; intros i E; [discriminate|].
  destruct (Nat.leb_spec m s) as [L|L].
  - injection E as <-. exists n, s. auto.
  - destruct (find_node_idx rest m) as [j|]; [|discriminate]. injection E as <-. exact (IH j eq_refl).
Qed.
Lemma find_exists sizes m : (exists n s, In (n, s) sizes /\ m <= s) -> exists i, find_node_idx sizes m = Some i.
Proof.
  induction sizes as [|(n, s) rest IH]; simpl; intros (n' & s' & I & L); [destruct I|].
  destruct (Nat.leb_spec m s) as [L'|L']; [eauto|]. destruct I as [I|I]; [injection I as <- <-; lia|].
  destruct IH as (j & ->); [eauto|]. simpl. eauto.
Qed.
Lemma others_in sizes : forall e k s, In s (others sizes k (Some e)) ->
  exists n, In (n, s) (if k <=? e then remove_nth (e - k) sizes else sizes).
Proof.
  induction sizes as [|(n0, s0) rest IH]; simpl; intros e k s I; [destruct I|].
  destruct (Nat.eqb_spec k e) as [->|N].
  - rewrite Nat.leb_refl, Nat.sub_diag. unfold remove_nth. simpl. destruct (IH _ _ _ I) as (n & J).
    destruct (Nat.leb_spec (S e) e); [lia|]. eauto.
  - destruct (Nat.leb_spec k e) as [L|L].
    + replace (e - k) with (S (e - S k)) by lia. unfold remove_nth. cbn [firstn skipn app].
      destruct I as [<-|I]; [exists n0; left; reflexivity|]. destruct (IH _ _ _ I) as (n & J).
      destruct (Nat.leb_spec (S k) e); [|lia]. exists n. right. exact J.
    + destruct I as [<-|I]; [exists n0; left; reflexivity|]. destruct (IH _ _ _ I) as (n & J).
      destruct (Nat.leb_spec (S k) e); [lia|]. exists n. right. exact J.
Qed.
Lemma others_length sizes : forall e k, length sizes <= S (length (others sizes k (Some e))).
Proof.
  assert (X : forall sizes e k, e < k -> length (others sizes k (Some e)) = length sizes).
  { clear. induction sizes as [|(n0, s0) rest IH]; simpl; intros e k L; [reflexivity|].
    destruct (Nat.eqb_spec k e); [lia|]. simpl. rewrite IH by lia. reflexivity. }
  induction sizes as [|(n0, s0) rest IH]; simpl; intros e k; [lia|].
  destruct (Nat.eqb_spec k e) as [->|N].
  - rewrite X by lia. lia.
  - simpl. specialize (IH e (S k)). lia.
Qed.
Lemma fold_max_in l : forall s, In (fold_left Nat.max l s) (s :: l).
Proof.
  induction l as [|x l IH]; simpl; intros s; [auto|]. destruct (IH (Nat.max s x)) as [E|I]; [|auto].
  destruct (Nat.max_dec s x) as [M|M]; rewrite M in E at 1; rewrite <- E; auto.
Qed.
Lemma remove_nth_in {A} i (l : list A) x : In x (remove_nth i l) -> In x l.
Proof.
  unfold remove_nth. intros I. apply in_app_iff in I as [I|I].
  - rewrite <- (firstn_skipn i l). apply in_app_iff. auto.
  - rewrite <- (firstn_skipn (S i) l). apply in_app_iff. auto.
Qed.
Lemma remove_nth_split {A} i (l : list A) x : nth_error l i = Some x ->
  exists a b, l = a ++ x :: b /\ remove_nth i l = a ++ b.
Proof.
  intros N. destruct (nth_error_split l i N) as (a & b & -> & <-). exists a, b. split; [reflexivity|].
  unfold remove_nth. rewrite firstn_app, Nat.sub_diag, firstn_all. cbn [firstn]. rewrite app_nil_r.
  rewrite skipn_app, skipn_all2 by lia. replace (S (length a) - length a) with 1 by lia. reflexivity.
Qed.
Lemma set_fresh {V} k (v : V) d : ~ In k (map fst d) -> set k v d = d ++ [(k, v)].
Proof.
  induction d as [|(k0, v0) d IH]; simpl; intros N; [reflexivity|].
  destruct (Nat.eqb_spec k k0) as [->|Ne]; [tauto|]. rewrite IH by tauto. reflexivity.
Qed.

(** ceiling of [a / b] *)
Definition ceil_div (a b : nat) : nat := (a + b - 1) / b.
Lemma div_ceil a b c : 0 < b -> a <= b * c -> a / b <= c.
Proof. intros B L. apply Nat.div_le_upper_bound; lia. Qed.
Lemma ceil_spec a b : 0 < b -> a <= b * ceil_div a b.
Proof.
  intros B. unfold ceil_div. pose proof (Nat.div_mod_eq (a + b - 1) b). pose proof (Nat.mod_upper_bound (a + b - 1) b).
  lia.
Qed.
Lemma rest_ceil a b c : 1 < b -> a <= b * c -> a - a / b <= (b - 1) * c.
Proof.
  intros B L. destruct (Nat.le_gt_cases c (a / b)) as [G|G]; [nia|].
  pose proof (Nat.div_mod_eq a b). pose proof (Nat.mod_upper_bound a b). nia.
Qed.

Lemma loop_ok start till batch c : 1 <= start -> forall fuel nodes pos reqs,
  length nodes <= fuel -> NoDup (map fst nodes) -> NoDup (map fst reqs) ->
  (forall n, In n (map fst nodes) -> ~ In n (map fst reqs)) ->
  (forall n s, In (n, s) nodes -> start <= s) ->
  (start <= pos -> exists n s, In (n, s) nodes /\ pos <= s) ->
  exists new, build_loop fuel start till batch nodes pos reqs = Ok (reqs ++ new) /\
    NoDup (map fst (reqs ++ new)) /\ (forall n, In n (map fst new) -> In n (map fst nodes)) /\
    Forall (fair nodes till) new /\ exactly_once start pos new /\
    ((forall n s, In (n, s) nodes -> pos <= s) -> pos - start + 1 <= length nodes * c ->
     forall n r, In (n, r) new -> q_end r - q_start r + 1 <= Nat.max batch c).
Proof.
  intros S1. induction fuel as [|fuel IH]; intros nodes pos reqs LF ND NR DJ LO HI.
  - destruct nodes; [|simpl in LF; lia]. exists []. simpl. rewrite app_nil_r.
    split; [reflexivity|]. split; [exact NR|]. split; [tauto|]. split; [constructor|]. split.
    + split; [|intros n r k []]. intros k K. destruct HI as (n & s & [] & _). lia.
    + intros _ _ n r [].
  - cbn [build_loop]. destruct (Nat.ltb_spec 0 (length nodes)) as [L0|L0]; cbn [andb].
    2:{ destruct nodes; [|simpl in L0; lia]. exists []. simpl. rewrite app_nil_r.
        split; [reflexivity|]. split; [exact NR|]. split; [tauto|]. split; [constructor|]. split.
        + split; [|intros n r k []]. intros k K. destruct HI as (n & s & [] & _). lia.
        + intros _ _ n r []. }
    destruct (Nat.leb_spec start pos) as [LP|LP].
    2:{ exists []. rewrite app_nil_r. split; [reflexivity|]. split; [exact NR|]. split; [intros n []|].
        split; [constructor|]. split.
        + split; [|intros n r k []]. intros k K. lia.
        + intros _ _ n r []. }
    destruct (find_exists nodes pos (HI LP)) as (i & Ei). rewrite Ei.
    destruct (find_some _ _ _ Ei) as (n0 & s0 & Ni & Ls). rewrite Ni.
    destruct (remove_nth_split i nodes _ Ni) as (a & b & En & Er).
    set (t0 := Nat.min (pos - start + 1) (Nat.max batch ((pos - start + 1) / length nodes))).
    assert (T0 : t0 <= pos - start + 1) by (unfold t0; lia).
    assert (ST : exists t,
       (if 1 <? length nodes then next <- next_best_size nodes (Some i) ;; Ok (if next <? pos - t0 then pos - next else t0)
        else Ok t0) = Ok t /\ t <= pos - start + 1 /\
       (start <= pos - t -> exists n s, In (n, s) (a ++ b) /\ pos - t <= s) /\
       ((forall n s, In (n, s) nodes -> pos <= s) -> t = t0)).
    { destruct (Nat.ltb_spec 1 (length nodes)) as [L1|L1].
      - unfold next_best_size. pose proof (others_length nodes i 0) as OL.
        destruct (others nodes 0 (Some i)) as [|x xs] eqn:EO; [simpl in OL; lia|]. cbn [bind].
        pose proof (fold_max_in xs x) as FI. set (next := fold_left Nat.max xs x) in *. rewrite <- EO in FI.
        destruct (others_in _ _ _ _ FI) as (nn & IN). simpl in IN. rewrite Nat.sub_0_r in IN.
        pose proof (LO _ _ (remove_nth_in _ _ _ IN)) as LN. rewrite Er in IN.
        exists (if next <? pos - t0 then pos - next else t0). split; [reflexivity|].
        destruct (Nat.ltb_spec next (pos - t0)) as [L|L].
        + split; [lia|]. split.
          * intros _. exists nn, next. split; [exact IN|lia].
          * intros A. exfalso. assert (In (nn, next) nodes) as IN'.
            { rewrite En. apply in_app_iff in IN. apply in_app_iff. simpl. tauto. }
            specialize (A _ _ IN'). lia.
        + split; [lia|]. split; [|reflexivity]. intros _. exists nn, next. split; [exact IN|lia].
      - exists t0. split; [reflexivity|]. split; [exact T0|]. split; [|reflexivity].
        assert (length nodes = 1) as L by lia. unfold t0. rewrite L, Nat.div_1_r. lia. }
    destruct ST as (t & -> & TL & HI' & TE). cbn [bind].
    assert (I0 : In (n0, s0) nodes) by (rewrite En; apply in_app_iff; simpl; auto).
    rewrite En, map_app in ND. cbn [map fst] in ND. pose proof (NoDup_remove_1 _ _ _ ND) as ND1.
    pose proof (NoDup_remove_2 _ _ _ ND) as ND2. rewrite <- map_app in ND1, ND2.
    assert (SUB : forall n s, In (n, s) (a ++ b) -> In (n, s) nodes).
    { intros n s J. rewrite En. apply in_app_iff in J. apply in_app_iff. simpl. tauto. }
    assert (SUBK : forall n, In n (map fst (a ++ b)) -> In n (map fst nodes)).
    { intros n J. apply in_map_iff in J as ((n', s') & <- & J). apply in_map. auto. }
    assert (F0 : ~ In n0 (map fst reqs)) by (apply DJ; apply (in_map fst) in I0; exact I0).
    set (one := if 0 <? t then [(n0, mkReq (pos - t + 1) pos till)] else []).
    assert (EO : (if 0 <? t then set n0 (mkReq (pos - t + 1) pos till) reqs else reqs) = reqs ++ one).
    { unfold one. destruct (0 <? t); [apply set_fresh; exact F0|rewrite app_nil_r; reflexivity]. }
    rewrite EO, Er. clear EO.
    assert (OK1 : forall n, In n (map fst one) -> n = n0).
    { unfold one. destruct (0 <? t); simpl; intros n J; [|destruct J]. destruct J as [<-|[]]. reflexivity. }
    destruct (IH (a ++ b) (pos - t) (reqs ++ one)) as (new & EN & N1 & N2 & N3 & N4 & N5).
    + rewrite En, app_length in LF. simpl in LF. rewrite app_length. lia.
    + exact ND1.
    + rewrite map_app. unfold one. destruct (0 <? t); simpl; [|rewrite app_nil_r; exact NR].
      apply (Permutation_NoDup (Permutation_cons_append _ _)). apply NoDup_cons; assumption.
    + intros n J K. rewrite map_app in K. apply in_app_iff in K as [K|K].
      * exact (DJ n (SUBK n J) K).
      * apply OK1 in K. subst n. exact (ND2 J).
    + intros n s J. exact (LO n s (SUB n s J)).
    + exact HI'.
    + exists (one ++ new). rewrite EN, <- app_assoc. split; [reflexivity|].
      rewrite <- app_assoc in N1. split; [exact N1|]. split; [|split; [|split]].
      * intros n J. rewrite map_app in J. apply in_app_iff in J as [J|J]; [|auto].
        apply OK1 in J. subst n. apply (in_map fst) in I0. exact I0.
      * apply Forall_app. split.
        { unfold one. destruct (Nat.ltb_spec 0 t) as [Lt|Lt]; [|constructor]. apply Forall_cons; [|constructor].
          split; [cbn; lia|]. split; [reflexivity|]. exists s0. split; [exact I0|exact Ls]. }
        { revert N3. apply Forall_impl. intros nr (A & A' & s & J & A''). split; [exact A|]. split; [exact A'|].
          exists s. split; [|exact A'']. destruct nr as (n1, r1). exact (SUB _ _ J). }
      * destruct N4 as [C1 C2]. split.
        { intros k K. destruct (Nat.le_gt_cases k (pos - t)) as [Lk|Lk].
          - destruct (C1 k) as (n & r & J & A & U); [lia|]. exists n, r. split; [apply in_app_iff; auto|].
            split; [exact A|]. intros n' r' J' A'. apply in_app_iff in J' as [J'|J']; [|auto]. exfalso.
            unfold one in J'. destruct (0 <? t); [|destruct J']. destruct J' as [J'|[]]. injection J' as <- <-.
            unfold asks in A'. simpl in A'. lia.
          - unfold one. destruct (Nat.ltb_spec 0 t) as [Lt|Lt]; [|lia].
            exists n0, (mkReq (pos - t + 1) pos till). split; [left; reflexivity|]. split; [unfold asks; simpl; lia|].
            intros n' r' J' A'. destruct J' as [J'|J']; [injection J' as <- <-; auto|].
            specialize (C2 _ _ _ J' A'). lia. }
        { intros n r k J A. apply in_app_iff in J as [J|J].
          - unfold one in J. destruct (0 <? t); [|destruct J]. destruct J as [J|[]]. injection J as <- <-.
            unfold asks in A. simpl in A. lia.
          - specialize (C2 _ _ _ J A). lia. }
      * intros ALL BND n r J. specialize (TE ALL). subst t.
        assert (LEN : length nodes = S (length (a ++ b))) by (rewrite En, !app_length; simpl; lia).
        assert (t0 <= Nat.max batch c) as BT.
        { pose proof (div_ceil (pos - start + 1) (length nodes) c L0 BND). unfold t0. lia. }
        apply in_app_iff in J as [J|J].
        { unfold one in J. destruct (Nat.ltb_spec 0 t0) as [Z|Z]; [|destruct J]. destruct J as [J|[]]. injection J as <- <-. simpl. lia. }
        destruct (Nat.le_gt_cases start (pos - t0)) as [LS|LS].
        2:{ assert (F : Forall (fair (a ++ b) till) new) by exact N3. rewrite Forall_forall in F.
            destruct (F _ J) as (Q & _ & _). simpl in Q. destruct N4 as [_ C2].
            specialize (C2 _ _ (q_start r) J). unfold asks in C2. lia. }
        revert n r J. apply N5.
        { intros n s J. specialize (ALL _ _ (SUB _ _ J)). lia. }
        { assert (1 < length nodes) as L1.
          { destruct (Nat.le_gt_cases (length nodes) 1) as [X|X]; [|exact X]. exfalso.
            assert (length nodes = 1) as Y by lia. unfold t0 in LS. rewrite Y, Nat.div_1_r in LS. lia. }
          pose proof (rest_ceil (pos - start + 1) (length nodes) c L1 BND) as RC.
          assert (length (a ++ b) = length nodes - 1) as -> by lia.
          assert ((pos - start + 1) / length nodes <= t0).
          { unfold t0. assert ((pos - start + 1) / length nodes <= pos - start + 1) by (rewrite <- (Nat.div_1_r (pos - start + 1)) at 2; apply Nat.div_le_compat_l; lia). lia. }
          lia. }
Qed.

(** ** C37 *)
(** For every range of missing transactions and every claimed ledger sizes, one of them
    reaching the end, in whatever order the nodes are shuffled and whatever the batch size:
    building the requests succeeds, no node gets two, every request is non-empty, carries
    the agreed size and stays within what its node said it has, and each missing
    transaction is asked of exactly one node. *)
Theorem C37_cover : forall sh start end_ till sizes batch,
  (forall l, Permutation l (sh l)) -> NoDup (map fst sizes) -> 1 <= start <= end_ ->
  (exists n s, In (n, s) sizes /\ end_ <= s) ->
  exists reqs, build_catchup_reqs sh start end_ till sizes batch = Ok reqs /\
    NoDup (map fst reqs) /\ Forall (fair sizes till) reqs /\ exactly_once start end_ reqs.
Proof.
  intros sh start end_ till sizes batch SH ND R (n0 & s0 & I0 & L0). unfold build_catchup_reqs.
  set (l := map _ _). pose proof (SH l) as P.
  assert (LI : forall n s, In (n, s) (sh l) -> exists s', In (n, s') sizes /\ start <= s' /\ s = Nat.min s' end_).
  { intros n s I. apply (Permutation_in _ (Permutation_sym P)) in I. unfold l in I.
    apply in_map_iff in I as ((n', s') & E & I). injection E as <- <-. apply filter_In in I as [I F].
    apply Nat.leb_le in F. eauto. }
  destruct (loop_ok start till batch 0 ltac:(lia) (length (sh l)) (sh l) end_ []) as (new & E & N1 & N2 & N3 & N4 & _).
  - lia.
  - apply (Permutation_NoDup (Permutation_map fst P)). unfold l. rewrite map_map.
    rewrite (map_ext _ fst) by (intros (x, y); reflexivity). apply nodup_filter. exact ND.
  - constructor.
  - intros n _ [].
  - intros n s I. destruct (LI n s I) as (s' & _ & A & ->). lia.
  - intros _. exists n0, (Nat.min s0 end_). split; [|lia]. apply (Permutation_in _ P). unfold l.
    apply in_map_iff. exists (n0, s0). split; [reflexivity|]. apply filter_In. split; [exact I0|]. apply Nat.leb_le. lia.
  - exists new. simpl in E, N1. split; [exact E|]. split; [exact N1|]. split; [|exact N4].
    revert N3. apply Forall_impl. intros (n, r) (A & A' & s & I & A''). simpl in *.
    destruct (LI n s I) as (s' & I' & _ & ->). split; [exact A|]. split; [exact A'|]. exists s'. split; [exact I'|]. simpl. lia.
Qed.

(** When every node has everything, the load is spread: no node is asked for more than the
    batch size or an even share (rounded up), whichever is larger. *)
Theorem C37_spread : forall sh start end_ till sizes batch reqs,
  (forall l, Permutation l (sh l)) -> NoDup (map fst sizes) -> 1 <= start <= end_ ->
  sizes <> [] -> (forall n s, In (n, s) sizes -> end_ <= s) ->
  build_catchup_reqs sh start end_ till sizes batch = Ok reqs ->
  forall n r, In (n, r) reqs ->
    q_end r - q_start r + 1 <= Nat.max batch (ceil_div (end_ - start + 1) (length sizes)).
Proof.
  intros sh start end_ till sizes batch reqs SH ND R NE ALL. unfold build_catchup_reqs.
  assert (FA : filter (fun '(_, size) => start <=? size) sizes = sizes).
  { assert (G : forall l : list (nat * nat), (forall n s, In (n, s) l -> end_ <= s) ->
                filter (fun '(_, size) => start <=? size) l = l).
    { induction l as [|(n, s) l IH]; simpl; intros A; [reflexivity|].
      specialize (A n s (or_introl eq_refl)) as As. destruct (Nat.leb_spec start s); [|lia]. rewrite IH; [reflexivity|].
      intros n' s' I. apply (A n' s'). auto. }
    apply G. exact ALL. }
  rewrite FA. set (l := map _ _). pose proof (SH l) as P. intros E.
  assert (LI : forall n s, In (n, s) (sh l) -> exists s', In (n, s') sizes /\ s = Nat.min s' end_).
  { intros n s I. apply (Permutation_in _ (Permutation_sym P)) in I. unfold l in I.
    apply in_map_iff in I as ((n', s') & F & I). injection F as <- <-. eauto. }
  assert (LEN : length (sh l) = length sizes).
  { rewrite <- (Permutation_length P). unfold l. apply map_length. }
  destruct (loop_ok start till batch (ceil_div (end_ - start + 1) (length sizes)) ltac:(lia) (length (sh l)) (sh l) end_ [])
    as (new & E' & _ & _ & _ & _ & N5).
  - lia.
  - apply (Permutation_NoDup (Permutation_map fst P)). unfold l. rewrite map_map.
    rewrite (map_ext _ fst) by (intros (x, y); reflexivity). exact ND.
  - constructor.
  - intros n _ [].
  - intros n s I. destruct (LI n s I) as (s' & I' & ->). specialize (ALL _ _ I'). lia.
  - intros _. destruct sizes as [|(n0, s0) rest]; [congruence|]. exists n0, (Nat.min s0 end_). split.
    + apply (Permutation_in _ P). left. reflexivity.
    + specialize (ALL n0 s0 (or_introl eq_refl)). lia.
  - rewrite E in E'. injection E' as ->. simpl. apply N5.
    + intros n s I. destruct (LI n s I) as (s' & I' & ->). specialize (ALL _ _ I'). lia.
    + rewrite LEN. apply ceil_spec. destruct sizes; [congruence|simpl; lia].
Qed.

(** Nobody has the end of the range although somebody has its beginning: the code indexes a
    list with None. *)
Theorem C37_nobody_has_the_end : forall sh start end_ till sizes batch,
  (forall l, Permutation l (sh l)) -> start <= end_ ->
  (forall n s, In (n, s) sizes -> s < end_) -> (exists n s, In (n, s) sizes /\ start <= s) ->
  build_catchup_reqs sh start end_ till sizes batch = Err TypeError.
Proof.
  intros sh start end_ till sizes batch SH R ALL (n0 & s0 & I0 & L0). unfold build_catchup_reqs.
  set (l := map _ _). pose proof (SH l) as P.
  assert (LI : forall n s, In (n, s) (sh l) -> s < end_).
  { intros n s I. apply (Permutation_in _ (Permutation_sym P)) in I. unfold l in I.
    apply in_map_iff in I as ((n', s') & F & I). injection F as <- <-. apply filter_In in I as [I _].
    specialize (ALL _ _ I). lia. }
  assert (IN : In (n0, Nat.min s0 end_) (sh l)).
  { apply (Permutation_in _ P). unfold l. apply in_map_iff. exists (n0, s0). split; [reflexivity|].
    apply filter_In. split; [exact I0|]. apply Nat.leb_le. exact L0. }
  destruct (sh l) as [|x nodes] eqn:EL; [destruct IN|]. set (nodes' := x :: nodes) in *.
  change (length nodes') with (S (length nodes)). cbn [build_loop].
  change (length nodes') with (S (length nodes)). simpl (0 <? _). cbn [andb].
  destruct (Nat.leb_spec start end_); [|lia].
  destruct (find_node_idx nodes' end_) as [i|] eqn:F.
  { exfalso. destruct (find_some _ _ _ F) as (n & s & N & L). apply nth_error_In in N. specialize (LI _ _ N). lia. }
  unfold next_best_size, nodes'. destruct x as (nx, sx). cbn [others excluded].
  destruct (1 <? S (length nodes)); cbn [bind]; reflexivity.
Qed.

(** ** Witnesses *)
(** Five nodes with different ledgers are asked for transactions 3 to 20: 11 has too little
    and is left out, the rest is split by what each has. *)
Example C37_example :
  let sizes := [(11, 2); (12, 20); (13, 25); (14, 7); (15, 12)] in
  build_catchup_reqs (@rev _) 3 20 20 sizes 2 =
    Ok [(13, mkReq 17 20 20); (12, mkReq 13 16 20); (15, mkReq 8 12 20); (14, mkReq 3 7 20)] /\
  exists n s, In (n, s) sizes /\ 20 <= s.
Proof. split; [reflexivity|]. exists 13, 25. simpl. split; [tauto|lia]. Qed.
Example C37_spread_example :
  build_catchup_reqs (fun l => l) 1 17 17 [(1, 17); (2, 17); (3, 40)] 5 =
    Ok [(1, mkReq 13 17 17); (2, mkReq 7 12 17); (3, mkReq 1 6 17)].
Proof. reflexivity. Qed.
Example C37_nobody_example : build_catchup_reqs (fun l => l) 5 9 8 [(1, 8); (2, 8)] 5 = Err TypeError.
Proof. reflexivity. Qed.

Print Assumptions C37_cover.
Print Assumptions C37_spread.
Print Assumptions C37_nobody_has_the_end.
