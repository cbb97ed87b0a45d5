(** Proofs about the watch over the connection to the primary. *)
From Coq Require Import List Arith Bool Lia Sorted.
From Verif Require Import Base Dict ConnMon_Model ConnMon_Spec.
Import ListNotations.

Lemma mem_spec x l : mem x l = true <-> In x l.
Proof. apply mem_in. Qed.
Lemma there_spec c p conns vals : is_primary_connected c p conns vals = true <-> there c p conns vals.
Proof.
  unfold is_primary_connected, there. destruct (Nat.eqb_spec p (me c)) as [E|N]; [tauto|].
  rewrite <- !mem_spec. destruct (mem p conns); [tauto|]. destruct (mem p vals); cbn [negb]; intuition congruence.
Qed.

(** ** The queue *)
Definition before (a b : nat * job) : Prop := fst a <= fst b.
Definition sorted (s : state) : Prop := StronglySorted before (queue s).
Lemma in_insert d j q x : In x (insert d j q) <-> x = (d, j) \/ In x q.
Proof.
  induction q as [|[d' j'] q IH]; cbn [insert]; [cbn; intuition|]. destruct (d <? d'); cbn [In]; [intuition|]. rewrite IH. intuition.
Qed.
Lemma insert_sorted d j q : StronglySorted before q -> StronglySorted before (insert d j q).
Proof.
  induction q as [|[d' j'] q IH]; cbn [insert]; intros H; [repeat constructor|]. inversion H as [|? ? H1 H2]; subst.
  destruct (Nat.ltb_spec d d') as [L|L].
  - constructor; [exact H|]. constructor; [unfold before; cbn; lia|]. rewrite Forall_forall in *. intros x X. specialize (H2 x X). unfold before in *. cbn in *. lia.
  - constructor; [apply IH; exact H1|]. rewrite Forall_forall in *. intros x X. apply in_insert in X. destruct X as [->|X]; [exact L|apply H2; exact X].
Qed.
Lemma filter_sorted f q : StronglySorted before q -> StronglySorted before (filter f q).
Proof.
  induction q as [|a q IH]; cbn [filter]; intros H; [constructor|]. inversion H as [|? ? H1 H2]; subst.
  destruct (f a); [|apply IH; exact H1]. constructor; [apply IH; exact H1|]. rewrite Forall_forall in *.
  intros x X. apply filter_In in X. apply H2. apply X.
Qed.

(** ** Serving the timer *)
Section Serve.
Variables (c : config) (t : nat) (ready : bool) (D V : nat -> Prop) (M : nat).
Hypotheses (Ht : 0 < tolerate c) (Ha : 0 < again c).
Hypothesis (HM : ready = false -> t + tolerate c <= M).

Definition J (s : state) : Prop :=
  lost s <> None /\ sorted s /\
  (forall d, In (d, Check) (queue s) -> exists d0, D d0 /\ d0 <= d) /\
  (on s = true -> exists u, (In u (out s) \/ V u) /\ In (u + again c, Tick) (queue s)) /\
  (on s = true -> exists d0, D d0 /\ d0 <= t) /\
  (on s = false -> forall d, ~ In (d, Tick) (queue s)) /\
  (forall u, In u (out s) -> u = t /\ exists d0, D d0 /\ d0 <= t) /\
  (forall d, D d -> on s = true \/ exists d', In (d', Check) (queue s) /\ d' <= Nat.max d M) /\
  (ready = false -> on s = true \/ out s <> [] -> exists u, V u).

Definition dues (q : list (nat * job)) : nat := length (filter (fun x => fst x <=? t) q).
Lemma dues_insert d j q : t < d -> dues (insert d j q) = dues q.
Proof.
  clear HM. intros L. unfold dues. induction q as [|[d' j'] q IH]; cbn [insert].
  - cbn. destruct (Nat.leb_spec d t); [lia|reflexivity].
  - destruct (d <? d').
    + cbn [filter fst]. destruct (Nat.leb_spec d t); [lia|reflexivity].
    + cbn [filter fst]. destruct (d' <=? t); cbn [length]; rewrite IH; reflexivity.
Qed.

Lemma in_head (d : nat) (j : job) q x : In x ((d, j) :: q) -> x = (d, j) \/ In x q.
Proof. clear HM. intros [H|H]; [left; symmetry; exact H|right; exact H]. Qed.

Lemma J_check s d q : queue s = (d, Check) :: q -> d <= t -> J s ->
  let s1 := check c t ready None (State (lost s) q (on s) (prim s) (out s) (told s)) in
  J s1 /\ dues (queue s1) < dues (queue s) /\ prim s1 = prim s /\ told s1 = told s /\ lost s1 = lost s.
Proof.
  intros Hq Hd (J1 & J2 & J3 & J4 & J5 & J6 & J7 & J8 & J9). cbv zeta. unfold check. cbn [lost].
  destruct (lost s) as [x|] eqn:El; [|congruence].
  assert (StronglySorted before q) as Sq by (unfold sorted in J2; rewrite Hq in J2; inversion J2; assumption).
  assert (dues (queue s) = S (dues q)) as Hdu.
  { rewrite Hq. unfold dues. cbn [filter fst]. destruct (Nat.leb_spec d t); [reflexivity|lia]. }
  destruct (J3 d) as (d0 & Hd0 & Ld0); [rewrite Hq; left; reflexivity|].
  destruct ready eqn:Er; cbn [negb].
  - unfold start, vote. cbn [on out lost queue prim told]. destruct (on s) eqn:Eo.
    + split; [|cbn [queue prim told lost]; rewrite Hdu; repeat split; try reflexivity; lia]. unfold J, sorted. cbn [lost queue on prim out told]. repeat split.
      * discriminate.
      * exact Sq.
      * intros e He. apply J3. rewrite Hq. right. exact He.
      * intros _. destruct (J4 eq_refl) as (u & Hu & Hi). exists u. split; [destruct Hu as [Hu|Hu]; [left; right; exact Hu|right; exact Hu]|].
        rewrite Hq in Hi. apply in_head in Hi. destruct Hi as [Hi|Hi]; [congruence|exact Hi].
      * intros _. exists d0. split; [exact Hd0|lia].
      * discriminate.
      * destruct H as [<-|H]; [reflexivity|]. apply J7. exact H.
      * exists d0. split; [exact Hd0|lia].
      * intros e He. left. reflexivity.
      * intros Er'. congruence.
    + unfold schedule. cbn [on out lost queue prim told]. split; [|rewrite dues_insert by lia; rewrite Hdu; repeat split; try reflexivity; lia].
      unfold J, sorted. cbn [lost queue on prim out told]. repeat split.
      * discriminate.
      * apply insert_sorted. exact Sq.
      * intros e He. apply in_insert in He. destruct He as [He|He]; [discriminate|]. apply J3. rewrite Hq. right. exact He.
      * intros _. exists t. split; [left; left; reflexivity|]. apply in_insert. left. reflexivity.
      * intros _. exists d0. split; [exact Hd0|lia].
      * discriminate.
      * destruct H as [<-|H]; [reflexivity|]. apply J7. exact H.
      * exists d0. split; [exact Hd0|lia].
      * intros e He. left. reflexivity.
      * intros Er'. congruence.
  - unfold schedule. cbn [on out lost queue prim told]. split; [|rewrite dues_insert by lia; rewrite Hdu; repeat split; try reflexivity; try lia; exact El].
    unfold J, sorted. cbn [lost queue on prim out told]. split; [discriminate|]. split; [apply insert_sorted; exact Sq|]. split; [|split; [|split; [|split; [|split; [|split; [|intros _; exact (J9 eq_refl)]]]]]].
    + intros e He. apply in_insert in He. destruct He as [He|He]; [injection He as ->; exists d0; split; [exact Hd0|lia]|]. apply J3. rewrite Hq. right. exact He.
    + intros Eo. destruct (J4 Eo) as (u & Hu & Hi). exists u. split; [exact Hu|]. apply in_insert. right.
      rewrite Hq in Hi. apply in_head in Hi. destruct Hi as [Hi|Hi]; [congruence|exact Hi].
    + exact J5.
    + intros Eo e He. apply in_insert in He. destruct He as [He|He]; [discriminate|]. apply (J6 Eo e). rewrite Hq. right. exact He.
    + exact J7.
    + intros e He. destruct (J8 e He) as [Eo|(d' & Hi & L)]; [left; exact Eo|]. right. rewrite Hq in Hi. apply in_head in Hi. destruct Hi as [Hi|Hi].
      * exists (t + tolerate c). split; [apply in_insert; left; reflexivity|]. specialize (HM eq_refl). lia.
      * exists d'. split; [apply in_insert; right; exact Hi|exact L].
Qed.

Lemma J_tick s d q : queue s = (d, Tick) :: q -> d <= t -> J s ->
  let s1 := tick c t None (State (lost s) q (on s) (prim s) (out s) (told s)) in
  J s1 /\ dues (queue s1) < dues (queue s) /\ prim s1 = prim s /\ told s1 = told s /\ lost s1 = lost s.
Proof.
  intros Hq Hd (J1 & J2 & J3 & J4 & J5 & J6 & J7 & J8 & J9). cbv zeta. unfold tick. cbn [lost on].
  destruct (lost s) as [x|] eqn:El; [|congruence].
  assert (StronglySorted before q) as Sq by (unfold sorted in J2; rewrite Hq in J2; inversion J2; assumption).
  assert (dues (queue s) = S (dues q)) as Hdu.
  { rewrite Hq. unfold dues. cbn [filter fst]. destruct (Nat.leb_spec d t); [reflexivity|lia]. }
  destruct (on s) eqn:Eo; cbn [negb].
  2:{ exfalso. apply (J6 eq_refl d). rewrite Hq. left. reflexivity. }
  destruct (J5 eq_refl) as (d0 & Hd0 & Ld0).
  unfold vote, schedule. cbn [on out lost queue prim told]. split; [|rewrite dues_insert by lia; rewrite Hdu; repeat split; try reflexivity; lia].
  unfold J, sorted. cbn [lost queue on prim out told]. rewrite ?Eo. repeat split.
  - discriminate.
  - apply insert_sorted. exact Sq.
  - intros e He. apply in_insert in He. destruct He as [He|He]; [discriminate|]. apply J3. rewrite Hq. right. exact He.
  - intros _. exists t. split; [left; left; reflexivity|]. apply in_insert. left. reflexivity.
  - intros _. exists d0. split; [exact Hd0|lia].
  - congruence.
  - destruct H as [<-|H]; [reflexivity|]. apply J7. exact H.
  - exists d0. split; [exact Hd0|lia].
  - intros e He. left. reflexivity.
  - intros Er _. apply (J9 Er). left. reflexivity.
Qed.

Lemma dues_zero q x : dues q = 0 -> In x q -> t < fst x.
Proof.
  clear HM. unfold dues. intros H Hx. destruct (Nat.ltb_spec t (fst x)) as [L|L]; [exact L|]. exfalso.
  assert (In x (filter (fun x => fst x <=? t) q)) as X by (apply filter_In; split; [exact Hx|apply Nat.leb_le; exact L]).
  destruct (filter (fun x => fst x <=? t) q); [contradiction|discriminate].
Qed.

Lemma J_serve n s : dues (queue s) <= n -> J s ->
  J (serve c n t ready None s) /\ (forall x, In x (queue (serve c n t ready None s)) -> t < fst x) /\
  prim (serve c n t ready None s) = prim s /\ told (serve c n t ready None s) = told s /\ lost (serve c n t ready None s) = lost s.
Proof.
  revert s. induction n as [|n IH]; intros s Hn H; cbn [serve].
  - split; [exact H|]. split; [|repeat split; reflexivity]. intros x Hx. apply (dues_zero (queue s)); [lia|exact Hx].
  - destruct (queue s) as [|[d j] q] eqn:Eq.
    + split; [exact H|]. split; [|repeat split; reflexivity]. rewrite Eq. intros x [].
    + destruct (Nat.leb_spec d t) as [L|L].
      * cbv zeta. set (s1 := match j with Check => _ | Tick => _ end).
        assert (J s1 /\ dues (queue s1) < dues (queue s) /\ prim s1 = prim s /\ told s1 = told s /\ lost s1 = lost s) as (A & B & P & T & Lo).
        { unfold s1. destruct j; [apply (J_check s d q Eq L H)|apply (J_tick s d q Eq L H)]. }
        assert ((match out s1 with [] => None | _ => None end : option select) = None) as -> by (destruct (out s1); reflexivity).
        destruct (IH s1) as (I1 & I2 & I3 & I4 & I5); [rewrite Eq in B; lia|exact A|]. split; [exact I1|]. split; [exact I2|]. repeat split; congruence.
      * split; [exact H|]. split; [|repeat split; reflexivity]. intros x Hx. destruct H as (_ & J2 & _). unfold sorted in J2.
        rewrite Eq in Hx, J2. inversion J2 as [|? ? H1 H2]; subst. rewrite Forall_forall in H2. destruct Hx as [<-|Hx]; [exact L|].
        specialize (H2 x Hx). unfold before in H2. cbn in H2. lia.
Qed.
End Serve.

(** ** Histories *)
Definition last (t0 : nat) (h : list event) : nat := match h with [] => t0 | e :: _ => time e end.
Definition unready (h : list event) (u : nat) : Prop := exists r s x, In (Serve u r s x) h /\ r && s = false.

Definition Inv (c : config) (t0 : nat) (h : list event) (s : state) : Prop :=
  prim s = primary h /\
  (lost s = None -> ~ down c h /\ queue s = [] /\ on s = false) /\
  (lost s <> None -> down c h) /\
  sorted s /\
  (forall d, In (d, Check) (queue s) -> exists d0, deadline c t0 h d0 /\ d0 <= d) /\
  (on s = true -> exists u, voted c t0 h u /\ In (u + again c, Tick) (queue s)) /\
  (on s = false -> forall d, ~ In (d, Tick) (queue s)) /\
  (forall u, voted c t0 h u -> u <= last t0 h /\ exists d0, deadline c t0 h d0 /\ d0 <= u) /\
  (forall M d, (forall u, unready h u -> u + tolerate c <= M) -> deadline c t0 h d ->
     on s = true \/ exists d', In (d', Check) (queue s) /\ d' <= Nat.max d M).

Lemma ups_not_downs c h e : ups c h e -> ~ downs c h e.
Proof. destruct e; cbn [ups downs]; tauto. Qed.
Lemma deadline_down c t0 h d : deadline c t0 h d -> down c h.
Proof.
  induction 1 as [|h e H|h t H H'|h e d H IH H']; [constructor|apply down_event; exact H|apply down_still; [exact H|intros []]|apply down_still; assumption].
Qed.
Lemma up_no_down c h e : ups c h e -> ~ down c (e :: h).
Proof. intros U X. inversion X; subst; [apply (ups_not_downs c h e); assumption|contradiction]. Qed.

Lemma serve_deadline c t0 h t r s x d : deadline c t0 (Serve t r s x :: h) d <-> deadline c t0 h d.
Proof. split; [intros X; inversion X; subst; [contradiction|assumption]|intros X; apply dl_still; [exact X|intros []]]. Qed.
Lemma serve_down c h t r s x : down c (Serve t r s x :: h) <-> down c h.
Proof. split; [intros X; inversion X; subst; [contradiction|assumption]|intros X; apply down_still; [exact X|intros []]]. Qed.

Lemma serve_empty c n t r x s : queue s = [] -> serve c n t r x s = s.
Proof. intros H. destruct n; cbn [serve]; [reflexivity|]. rewrite H. reflexivity. Qed.

Lemma is_prim_spec (c : config) x h s : prim s = primary h -> is_prim x s = true <-> primary h = Some x.
Proof.
  intros H. unfold is_prim. rewrite H. destruct (primary h) as [p|]; [|split; discriminate].
  rewrite Nat.eqb_eq. split; congruence.
Qed.

Lemma timely_last t0 h e : timely t0 (e :: h) -> last t0 h <= time e /\ timely t0 h.
Proof. cbn [timely]. destruct h; cbn [last]; tauto. Qed.

(** a step that only watches: nothing that the invariant speaks of changes *)
Lemma connected_inv c t0 h e s : is_master c = true -> ups c h e -> prim s = primary (e :: h) -> on s = on s ->
  sorted s -> (on s = false -> forall d, ~ In (d, Tick) (queue s)) -> out (run c t0 (e :: h)) = [] ->
  Inv c t0 (e :: h) (connected c s).
Proof.
  intros Hm U Hp _ Hs Ht Ho.
  assert (forall d, ~ deadline c t0 (e :: h) d) as Nd by (intros d X; apply (up_no_down c h e U); apply (deadline_down c t0 _ d X)).
  assert (forall u, ~ voted c t0 (e :: h) u) as Nv by (intros u X; inversion X; subst; [rewrite Ho in *; contradiction|contradiction]).
  assert (lost (connected c s) = None /\ queue (connected c s) = [] /\ on (connected c s) = false /\ prim (connected c s) = prim s) as (A & B & C & P).
  { unfold connected. rewrite Hm. unfold with_lost, cancel, stop. cbn [on queue lost prim].
    assert (forall q, (forall d, ~ In (d, Tick) q) -> filter (fun x : nat * job => negb (job_eqb (snd x) Check)) q = []) as F1.
    { induction q as [|[d j] q IH]; intros H; cbn [filter snd]; [reflexivity|]. destruct j; cbn [job_eqb negb].
      - apply IH. intros d' X. apply (H d'). right. exact X.
      - exfalso. apply (H d). left. reflexivity. }
    destruct (on s) eqn:Eo; cbn [lost queue on prim].
    - unfold cancel. cbn [lost queue on prim]. repeat split.
      generalize (queue s). induction l as [|[d j] q IH]; cbn [filter snd]; [reflexivity|]. destruct j; cbn [job_eqb negb filter snd]; exact IH.
    - repeat split; try reflexivity; try exact Eo. apply F1. apply Ht. reflexivity. }
  unfold Inv, sorted. rewrite A, B, C, P. repeat split.
  - exact Hp.
  - apply up_no_down. exact U.
  - congruence.
  - constructor.
  - intros d [].
  - discriminate.
  - intros _ d [].
  - exfalso. apply (Nv u). exact H.
  - exfalso. apply (Nv u). exact H.
  - intros M d _ X. exfalso. apply (Nd d). exact X.
Qed.

Lemma unready_old h e u : unready h u -> unready (e :: h) u.
Proof. intros (r & s & x & H & E). exists r, s, x. split; [right; exact H|exact E]. Qed.

Lemma disconnected_inv c t0 h e s : is_master c = true -> downs c h e -> prim s = primary (e :: h) -> last t0 h <= time e ->
  Inv c t0 h (State (lost s) (queue s) (on s) (primary h) (out s) (told s)) -> out (run c t0 (e :: h)) = [] ->
  Inv c t0 (e :: h) (disconnected c (time e) s).
Proof.
  intros Hm U Hp Hl (I1 & I2 & I3 & I4 & I5 & I6 & I7 & I8 & I9) Ho. cbn [lost queue on prim] in *.
  assert (~ ups c h e) as Nu by (intros X; apply (ups_not_downs c h e X U)).
  unfold disconnected. rewrite Hm. unfold schedule, Inv, sorted. cbn [lost queue on prim out told]. split; [exact Hp|].
  split; [discriminate|]. split; [intros _; apply down_event; exact U|]. split; [apply insert_sorted; exact I4|].
  split; [|split; [|split; [|split]]].
  - intros d He. apply in_insert in He. destruct He as [He|He].
    + injection He as ->. exists (time e + tolerate c). split; [apply dl_event; exact U|lia].
    + destruct (I5 d He) as (d0 & A & B). exists d0. split; [apply dl_still; assumption|exact B].
  - intros Eo. destruct (I6 Eo) as (u & A & B). exists u. split; [apply voted_before; assumption|]. apply in_insert. right. exact B.
  - intros Eo d He. apply in_insert in He. destruct He as [He|He]; [discriminate|]. apply (I7 Eo d He).
  - intros u X. inversion X; subst; [rewrite Ho in *; contradiction|]. destruct (I8 u) as (A & d0 & B & C); [assumption|].
    split; [cbn [last]; lia|]. exists d0. split; [apply dl_still; assumption|exact C].
  - intros M d HM X. inversion X as [| | |? ? ? X1 X2]; subst.
    + right. exists (time e + tolerate c). split; [apply in_insert; left; reflexivity|lia].
    + cbn in U. contradiction.
    + destruct (I9 M d) as [Eo|(d' & A & B)]; [intros u Hu; apply HM; apply unready_old; exact Hu|exact X1|left; exact Eo|].
      right. exists d'. split; [apply in_insert; right; exact A|exact B].
Qed.

(** a step that changes nothing but who the primary is *)
Lemma idle_inv c t0 h e s : ~ ups c h e -> ~ downs c h e -> (forall t, e <> Status t true \/ ~ (down c h /\ primary h <> None)) -> last t0 h <= time e ->
  Inv c t0 h s -> out (run c t0 (e :: h)) = [] ->
  Inv c t0 (e :: h) (State (lost s) (queue s) (on s) (primary (e :: h)) [] []).
Proof.
  intros Nu Ndn Ns Hl (I1 & I2 & I3 & I4 & I5 & I6 & I7 & I8 & I9) Ho.
  assert (down c (e :: h) <-> down c h) as Hd.
  { split; [intros X; inversion X; subst; [contradiction|assumption]|intros X; apply down_still; assumption]. }
  assert (forall d, deadline c t0 (e :: h) d <-> deadline c t0 h d) as Hdl.
  { intros d. split; [|intros X; apply dl_still; assumption]. intros X. inversion X; subst; [contradiction| |assumption].
    exfalso. destruct (Ns t) as [Y|Y]; [apply Y; reflexivity|apply Y; split; assumption]. }
  assert (forall u, voted c t0 (e :: h) u <-> voted c t0 h u) as Hv.
  { intros u. split; [|intros X; apply voted_before; assumption]. intros X. inversion X; subst; [rewrite Ho in *; contradiction|assumption]. }
  unfold Inv, sorted. cbn [lost queue on prim out told]. rewrite Hd. split; [reflexivity|]. split; [exact I2|]. split; [exact I3|]. split; [exact I4|].
  split; [intros d X; destruct (I5 d X) as (d0 & A & B); exists d0; rewrite Hdl; split; assumption|].
  split; [intros X; destruct (I6 X) as (u & A & B); exists u; rewrite Hv; split; assumption|]. split; [exact I7|].
  split.
  - intros u X. apply Hv in X. destruct (I8 u X) as (A & d0 & B & C). split; [cbn [last]; lia|]. exists d0. rewrite Hdl. split; assumption.
  - intros M d HM X. apply Hdl in X. apply (I9 M d); [|exact X]. intros u Hu. apply HM. apply unready_old. exact Hu.
Qed.

Lemma dues_le t q : dues t q <= length q.
Proof. unfold dues. induction q as [|a q IH]; cbn [filter length]; [lia|]. destruct (fst a <=? t); cbn [length]; lia. Qed.

Lemma serve_inv c t0 h t r y s : 0 < tolerate c -> 0 < again c -> last t0 h <= t -> Inv c t0 h s ->
  let e := Serve t r y None in let s' := step c s e in
  s' = run c t0 (e :: h) ->
  Inv c t0 (e :: h) s' /\ (forall x, In x (queue s') -> t < fst x) /\
  (forall u, In u (out s') -> u = t /\ down c h /\ (exists d0, deadline c t0 h d0 /\ d0 <= t) /\ (r && y = true \/ exists u', voted c t0 h u')) /\ told s' = [] /\ lost s' = lost s.
Proof.
  intros Ht Ha Hl (I1 & I2 & I3 & I4 & I5 & I6 & I7 & I8 & I9) e s' Hs'. unfold s', e in *. cbn [step] in *.
  destruct (lost s) as [x|] eqn:El.
  2:{ destruct (I2 eq_refl) as (Nd & Hq & Ho). rewrite serve_empty in * by (cbn; exact Hq). cbn [fresh queue out told lost] in *.
      split; [|split; [rewrite Hq; intros x []|split; [intros u []|split; [reflexivity|exact El]]]].
      assert (forall d, ~ deadline c t0 h d) as Ndl by (intros d X; apply Nd; apply (deadline_down c t0 h d X)).
      unfold Inv, sorted. cbn [fresh lost queue on prim out told]. rewrite Hq, Ho, El. split; [exact I1|]. split; [rewrite serve_down; tauto|].
      split; [congruence|]. split; [constructor|]. split; [intros d []|]. split; [discriminate|]. split; [intros _ d []|]. split.
      - intros u X. exfalso. assert (voted c t0 h u) as Y.
        { inversion X as [? ? ? Z|]; subst; [|assumption]. rewrite <- Hs' in Z. cbn in Z. contradiction. }
        destruct (I8 u Y) as (_ & d0 & B & _). apply (Ndl d0 B).
      - intros M d _ X. apply serve_deadline in X. exfalso. apply (Ndl d X). }
  assert (down c h) as Hd by (apply I3; discriminate).
  assert (forall M, (r && y = false -> t + tolerate c <= M) -> (forall u, unready h u -> u + tolerate c <= M) ->
    J c t (r && y) (deadline c t0 h) (voted c t0 h) M (fresh s)) as HJ.
  { intros M HM1 HM2. unfold J, sorted. cbn [fresh lost queue on prim out told]. rewrite El. split; [discriminate|]. split; [exact I4|]. split; [exact I5|].
    split; [intros X; destruct (I6 X) as (u & A & B); exists u; split; [right; exact A|exact B]|].
    split; [intros X; destruct (I6 X) as (u & A & _); destruct (I8 u A) as (B & d0 & C & D); exists d0; split; [exact C|lia]|].
    split; [exact I7|]. split; [intros u []|]. split; [intros d Hdl; apply (I9 M d HM2 Hdl)|]. intros _ [X|X]; [|congruence]. destruct (I6 X) as (u & A & _). exists u. exact A. }
  set (n := length (queue (fresh s))) in *. set (s1 := serve c n t (r && y) None (fresh s)) in *.
  assert (dues t (queue (fresh s)) <= n) as Hn by apply dues_le.
  (* some bound, for the parts that do not depend on it *)
  assert (forall M, (r && y = false -> t + tolerate c <= M) -> (forall u, unready h u -> u + tolerate c <= M) ->
    J c t (r && y) (deadline c t0 h) (voted c t0 h) M s1 /\ (forall x, In x (queue s1) -> t < fst x) /\ prim s1 = prim s /\ told s1 = [] /\ lost s1 = lost s) as HS.
  { intros M HM1 HM2. apply (J_serve c t (r && y) (deadline c t0 h) (voted c t0 h) M Ht Ha HM1 n (fresh s) Hn (HJ M HM1 HM2)). }
  assert (exists M, (r && y = false -> t + tolerate c <= M) /\ (forall u, unready h u -> u + tolerate c <= M)) as (M0 & HM1 & HM2).
  { assert (exists M, forall u, unready h u -> u <= M) as (M & HM).
    { clear. induction h as [|e h (M & IH)]; [exists 0; intros u (r & s & x & [] & _)|]. exists (Nat.max M (time e)).
      intros u (r & s & x & [X|X] & E); [subst e; cbn [time]; lia|]. specialize (IH u). assert (u <= M) by (apply IH; exists r, s, x; split; assumption). lia. }
    exists (Nat.max t M + tolerate c). split; [intros _; lia|]. intros u Hu. specialize (HM u Hu). lia. }
  destruct (HS M0 HM1 HM2) as ((S1 & S2 & S3 & S4 & S5 & S6 & S7 & S8 & S0) & S9 & S10 & S11 & S12).
  assert (forall u, voted c t0 (Serve t r y None :: h) u <-> In u (out s1) \/ voted c t0 h u) as Hv.
  { intros u. rewrite Hs'. split.
    - intros X. inversion X; subst; [left; assumption|right; assumption].
    - intros [X|X]; [apply voted_now; exact X|apply voted_before; [exact X|intros []]]. }
  split; [|split; [exact S9|split; [|split; [exact S11|rewrite S12; exact El]]]].
  2:{ intros u Hu. destruct (S7 u Hu) as (A & B). split; [exact A|]. split; [exact Hd|]. split; [exact B|].
      destruct (r && y); [left; reflexivity|right]. apply S0; [reflexivity|]. right. intros X. rewrite X in Hu. contradiction. }
  unfold Inv. split; [rewrite S10; exact I1|]. split; [intros X; contradiction|]. split; [intros _; apply serve_down; exact Hd|].
  split; [exact S2|]. split; [intros d X; destruct (S3 d X) as (d0 & A & B); exists d0; rewrite serve_deadline; split; assumption|].
  split; [intros X; destruct (S4 X) as (u & A & B); exists u; rewrite Hv; split; assumption|]. split; [exact S6|]. split.
  - intros u X. apply Hv in X. destruct X as [X|X].
    + destruct (S7 u X) as (-> & d0 & A & B). split; [cbn; lia|]. exists d0. rewrite serve_deadline. split; assumption.
    + destruct (I8 u X) as (A & d0 & B & C). split; [cbn [last time]; lia|]. exists d0. rewrite serve_deadline. split; assumption.
  - intros M d HM X. apply serve_deadline in X.
    destruct (HS M) as ((_ & _ & _ & _ & _ & _ & _ & K & _) & _).
    + intros E. apply HM. exists r, y, None. split; [left; reflexivity|exact E].
    + intros u Hu. apply HM. apply unready_old. exact Hu.
    + apply K. exact X.
Qed.

Lemma status_inv c t0 h t s : 0 < tolerate c -> down c h -> primary h <> None -> last t0 h <= t ->
  Inv c t0 h s -> out (run c t0 (Status t true :: h)) = [] ->
  Inv c t0 (Status t true :: h) (schedule (t + tolerate c) Check (fresh s)).
Proof.
  intros Ht Hd Hpr Hl (I1 & I2 & I3 & I4 & I5 & I6 & I7 & I8 & I9) Ho.
  assert (~ ups c h (Status t true)) as Nu by (intros []).
  assert (down c (Status t true :: h)) as Hd' by (apply down_still; assumption).
  unfold Inv, sorted, schedule. cbn [fresh lost queue on prim out told].
  split; [exact I1|]. split; [intros X; exfalso; apply I2 in X; tauto|]. split; [intros _; exact Hd'|].
  split; [apply insert_sorted; exact I4|]. split; [|split; [|split; [|split]]].
  - intros d He. apply in_insert in He. destruct He as [He|He].
    + injection He as ->. exists (t + tolerate c). split; [apply dl_woke; assumption|lia].
    + destruct (I5 d He) as (d0 & A & B). exists d0. split; [apply dl_still; assumption|exact B].
  - intros Eo. destruct (I6 Eo) as (u & A & B). exists u. split; [apply voted_before; assumption|]. apply in_insert. right. exact B.
  - intros Eo d He. apply in_insert in He. destruct He as [He|He]; [discriminate|]. apply (I7 Eo d He).
  - intros u X. inversion X; subst; [rewrite Ho in *; contradiction|]. destruct (I8 u) as (A & d0 & B & C); [assumption|].
    split; [cbn [last time]; lia|]. exists d0. split; [apply dl_still; assumption|exact C].
  - intros M d HM X. inversion X as [| | |? ? ? X1 X2]; subst.
    + contradiction.
    + right. exists (t + tolerate c). split; [apply in_insert; left; reflexivity|lia].
    + destruct (I9 M d) as [Eo|(d' & A & B)]; [intros u Hu; apply HM; apply unready_old; exact Hu|exact X1|left; exact Eo|].
      right. exists d'. split; [apply in_insert; right; exact A|exact B].
Qed.

Lemma connected_out c s : out (connected c s) = out s /\ told (connected c s) = told s.
Proof. unfold connected, with_lost, stop, cancel. destruct (is_master c); cbn [on]; [destruct (on s)|]; split; reflexivity. Qed.
Lemma disconnected_out c t s : out (disconnected c t s) = out s /\ told (disconnected c t s) = t :: told s.
Proof. unfold disconnected, schedule. destruct (is_master c); split; reflexivity. Qed.
Lemma selected_out c t p a b s : out (selected c t p a b s) = out s.
Proof. unfold selected. cbv zeta. destruct (is_primary_connected c p a b); [destruct (connected_out c (State (lost s) (queue s) (on s) (Some p) (out s) (told s))) as [X _]|destruct (disconnected_out c t (State (lost s) (queue s) (on s) (Some p) (out s) (told s))) as [X _]]; exact X. Qed.
Lemma out_serve_only c s e : (forall (t : nat) (r y : bool) x, e <> Serve t r y x) -> out (step c s e) = [].
Proof.
  intros H. destruct e as [t x|t x|t p a b|t p|t w|t r y x]; cbn [step].
  - destruct (is_prim x (fresh s)); [|reflexivity]. destruct (connected_out c (fresh s)) as [E _]. exact E.
  - destruct (is_prim x (fresh s)); [|reflexivity]. destruct (disconnected_out c t (fresh s)) as [E _]. exact E.
  - apply selected_out.
  - reflexivity.
  - destruct (lost (fresh s)), (prim (fresh s)), w; reflexivity.
  - exfalso. apply (H t r y x). reflexivity.
Qed.

Lemma inv_step c t0 h e : is_master c = true -> 0 < tolerate c -> 0 < again c -> last t0 h <= time e -> calm e ->
  Inv c t0 h (run c t0 h) -> Inv c t0 (e :: h) (run c t0 (e :: h)).
Proof.
  intros Hm Ht Ha Hl Hc H. pose proof H as (I1 & I2 & I3 & I4 & I5 & I6 & I7 & I8 & I9).
  change (run c t0 (e :: h)) with (step c (run c t0 h) e). set (s := run c t0 h) in *.
  assert ((forall t r y x, e <> Serve t r y x) -> out (run c t0 (e :: h)) = []) as Ho by (intros X; apply out_serve_only; exact X).
  assert (Inv c t0 h (fresh s)) as Hf by exact H.
  destruct e as [t x|t x|t p a b|t p|t w|t r y x]; cbn [step time] in *.
  - assert (out (run c t0 (Conn t x :: h)) = []) as Ho' by (apply Ho; intros; discriminate).
    destruct (is_prim x (fresh s)) eqn:E.
    + apply connected_inv; try assumption; try reflexivity. cbn. apply (is_prim_spec c x h (fresh s) I1). exact E.
    + assert (primary h <> Some x) as N by (intros X; apply (is_prim_spec c x h (fresh s) I1) in X; congruence).
      pose proof (idle_inv c t0 h (Conn t x) (fresh s) N (fun X => X) ltac:(intros; left; discriminate) Hl Hf Ho') as X. cbn [primary] in X.
      rewrite <- I1 in X. exact X.
  - assert (out (run c t0 (Disc t x :: h)) = []) as Ho' by (apply Ho; intros; discriminate).
    destruct (is_prim x (fresh s)) eqn:E.
    + apply (disconnected_inv c t0 h (Disc t x) (fresh s)); try assumption; try reflexivity; [cbn; apply (is_prim_spec c x h (fresh s) I1); exact E|].
      cbn [fresh lost queue on prim out told]. rewrite <- I1. exact Hf.
    + assert (primary h <> Some x) as N by (intros X; apply (is_prim_spec c x h (fresh s) I1) in X; congruence).
      pose proof (idle_inv c t0 h (Disc t x) (fresh s) (fun X => X) N ltac:(intros; left; discriminate) Hl Hf Ho') as X. cbn [primary] in X.
      rewrite <- I1 in X. exact X.
  - assert (out (run c t0 (Select t p a b :: h)) = []) as Ho' by (apply Ho; intros; discriminate).
    unfold selected. cbv zeta. destruct (is_primary_connected c p a b) eqn:E.
    + apply connected_inv; try assumption; try reflexivity. cbn. apply there_spec. exact E.
    + apply (disconnected_inv c t0 h (Select t p a b)); try assumption; try reflexivity.
      * cbn. intros X. apply there_spec in X. congruence.
      * cbn [fresh lost queue on prim out told]. rewrite <- I1. exact Hf.
  - assert (out (run c t0 (NewPrimary t p :: h)) = []) as Ho' by (apply Ho; intros; discriminate).
    exact (idle_inv c t0 h (NewPrimary t p) (fresh s) (fun X => X) (fun X => X) ltac:(intros; left; discriminate) Hl Hf Ho').
  - assert (out (run c t0 (Status t w :: h)) = []) as Ho' by (apply Ho; intros; discriminate).
    assert (~ (w = true /\ down c h /\ primary h <> None) -> Inv c t0 (Status t w :: h) (fresh s)) as Hi.
    { intros N. pose proof (idle_inv c t0 h (Status t w) (fresh s) (fun X => X) (fun X => X)) as X. cbn [primary] in X. rewrite <- I1 in X. apply X; try assumption.
      intros t'. destruct w; [right; rewrite I1; intros [P Q]; apply N; repeat split; assumption|left; discriminate]. }
    cbn [fresh lost prim]. destruct (lost s) as [l|] eqn:El.
    2:{ apply Hi. intros (_ & X & _). apply I2 in X; [exact X|reflexivity]. }
    destruct (prim s) as [q|] eqn:Ep.
    2:{ apply Hi. intros (_ & _ & X). congruence. }
    destruct w; [|apply Hi; intros (X & _); discriminate].
    apply status_inv; try assumption; [apply I3; discriminate|congruence].
  - cbn [calm] in Hc. destruct x; [contradiction|].
    apply (serve_inv c t0 h t r y s Ht Ha Hl H). reflexivity.
Qed.

Lemma inv_init c t0 : is_master c = true -> Inv c t0 [] (run c t0 []).
Proof.
  intros Hm. unfold run. cbn [fold_right]. unfold init. rewrite Hm. unfold schedule, Inv, sorted. cbn [lost queue on prim out told insert].
  split; [reflexivity|]. split; [discriminate|]. split; [intros _; constructor|]. split; [repeat constructor|].
  split; [intros d [X|[]]; injection X as <-; exists (t0 + initial c); split; [constructor|lia]|].
  split; [discriminate|]. split; [intros _ d [X|[]]; discriminate|]. split; [intros u X; inversion X|].
  intros M d _ X. inversion X; subst. right. exists (t0 + initial c). split; [left; reflexivity|lia].
Qed.

Lemma inv_run c t0 h : is_master c = true -> 0 < tolerate c -> 0 < again c -> timely t0 h -> Forall calm h -> Inv c t0 h (run c t0 h).
Proof.
  intros Hm Ht Ha. induction h as [|e h IH]; intros HT HC; [apply inv_init; exact Hm|].
  apply timely_last in HT. destruct HT as [HL HT]. inversion HC; subst. apply inv_step; try assumption. apply IH; assumption.
Qed.

Lemma safe c t0 h e u : is_master c = true -> 0 < tolerate c -> 0 < again c -> timely t0 (e :: h) -> Forall calm (e :: h) ->
  In u (out (run c t0 (e :: h))) -> u = time e /\ down c h /\ (exists d, deadline c t0 h d /\ d <= u) /\
  exists r y x, e = Serve u r y x /\ (r && y = true \/ exists u', voted c t0 h u').
Proof.
  intros Hm Ht Ha HT HC Hu. apply timely_last in HT. destruct HT as [HL HT]. inversion HC; subst.
  pose proof (inv_run c t0 h Hm Ht Ha HT) as HI. specialize (HI ltac:(assumption)).
  change (run c t0 (e :: h)) with (step c (run c t0 h) e) in Hu.
  destruct e as [t x|t x|t p a b|t p|t w|t r y x]; try (rewrite out_serve_only in Hu by (intros; discriminate); contradiction).
  cbn [calm] in *. destruct x; [contradiction|].
  destruct (serve_inv c t0 h t r y (run c t0 h) Ht Ha HL HI eq_refl) as (_ & _ & S & _). apply S in Hu.
  destruct Hu as (-> & A & B & E). split; [reflexivity|]. split; [exact A|]. split; [exact B|]. exists r, y, None. split; [reflexivity|exact E].
Qed.

Lemma live c t0 h t d : is_master c = true -> 0 < tolerate c -> 0 < again c ->
  timely t0 (Serve t true true None :: h) -> Forall calm h -> deadline c t0 h d -> d <= t ->
  (forall u r s x, In (Serve u r s x) h -> r && s = false -> u + tolerate c <= t) ->
  exists u, voted c t0 (Serve t true true None :: h) u /\ u <= t /\ t < u + again c.
Proof.
  intros Hm Ht Ha HT HC Hd Ld Hr. pose proof HT as HT'. apply timely_last in HT'. destruct HT' as [HL HT1].
  pose proof (inv_run c t0 h Hm Ht Ha HT1 HC) as HI.
  destruct (serve_inv c t0 h t true true (run c t0 h) Ht Ha HL HI eq_refl) as (I & Q & _).
  change (step c (run c t0 h) (Serve t true true None)) with (run c t0 (Serve t true true None :: h)) in *.
  destruct I as (_ & _ & _ & _ & _ & I6 & _ & I8 & I9).
  destruct (I9 t d) as [Eo|(d' & A & B)].
  - intros u (r & s & x & [X|X] & E); [injection X as <- <- <- <-; discriminate|]. apply (Hr u r s x X E).
  - apply serve_deadline. exact Hd.
  - destruct (I6 Eo) as (u & Hv & Hq). exists u. split; [exact Hv|]. split; [apply (I8 u Hv)|]. apply (Q _ Hq).
  - exfalso. specialize (Q _ A). cbn in Q. lia.
Qed.

(** ** What the node is told, of any instance *)
Lemma serve_quiet c n t ready s : prim (serve c n t ready None s) = prim s /\ told (serve c n t ready None s) = told s /\ lost (serve c n t ready None s) = lost s.
Proof.
  revert s. induction n as [|n IH]; intros s; cbn [serve]; [repeat split; reflexivity|].
  destruct (queue s) as [|[d j] q]; [repeat split; reflexivity|]. destruct (d <=? t); [|repeat split; reflexivity]. cbv zeta.
  set (s1 := match j with Check => _ | Tick => _ end).
  assert ((match out s1 with [] => None | _ => None end : option select) = None) as -> by (destruct (out s1); reflexivity).
  destruct (IH s1) as (A & B & C). rewrite A, B, C. unfold s1. destruct j.
  - unfold check. cbn [lost]. destruct (lost s) eqn:E; [|repeat split; try reflexivity; exact E]. destruct ready; cbn [negb].
    + unfold start, vote. cbn [on]. destruct (on s); repeat split; cbn; congruence.
    + repeat split; cbn; congruence.
  - unfold tick. cbn [on lost]. destruct (on s); cbn [negb]; [|repeat split; reflexivity]. destruct (lost s) eqn:E; repeat split; cbn; congruence.
Qed.

Lemma connected_parts c s : prim (connected c s) = prim s /\ lost (connected c s) = None.
Proof. unfold connected, with_lost, stop, cancel. destruct (is_master c); cbn [on]; [destruct (on s)|]; split; reflexivity. Qed.
Lemma disconnected_parts c t s : prim (disconnected c t s) = prim s /\ lost (disconnected c t s) = Some t.
Proof. unfold disconnected, schedule. destruct (is_master c); split; reflexivity. Qed.

Lemma step_parts c h s e : calm e -> prim s = primary h ->
  prim (step c s e) = primary (e :: h) /\
  ((ups c h e /\ lost (step c s e) = None /\ told (step c s e) = []) \/
   (downs c h e /\ lost (step c s e) = Some (time e) /\ told (step c s e) = [time e]) \/
   (~ ups c h e /\ ~ downs c h e /\ lost (step c s e) = lost s /\ told (step c s e) = [])).
Proof.
  intros Hc Hp. destruct e as [t x|t x|t p a b|t p|t w|t r y x]; cbn [step ups downs primary time].
  - pose proof (is_prim_spec c x h (fresh s) Hp) as E. destruct (is_prim x (fresh s)).
    + destruct (connected_parts c (fresh s)) as [A B]. destruct (connected_out c (fresh s)) as [_ C]. rewrite A, B, C. split; [exact Hp|]. left. split; [apply E; reflexivity|split; reflexivity].
    + split; [exact Hp|]. right. right. split; [intros X; apply E in X; discriminate|]. split; [intros []|split; reflexivity].
  - pose proof (is_prim_spec c x h (fresh s) Hp) as E. destruct (is_prim x (fresh s)).
    + destruct (disconnected_parts c t (fresh s)) as [A B]. destruct (disconnected_out c t (fresh s)) as [_ C]. rewrite A, B, C. split; [exact Hp|]. right. left. split; [apply E; reflexivity|split; reflexivity].
    + split; [exact Hp|]. right. right. split; [intros []|]. split; [intros X; apply E in X; discriminate|split; reflexivity].
  - unfold selected. cbv zeta. pose proof (there_spec c p a b) as E. destruct (is_primary_connected c p a b).
    + match goal with |- context [connected c ?z] => destruct (connected_parts c z) as [A B]; destruct (connected_out c z) as [_ C]; rewrite A, B, C end.
      split; [reflexivity|]. left. split; [apply E; reflexivity|split; reflexivity].
    + match goal with |- context [disconnected c t ?z] => destruct (disconnected_parts c t z) as [A B]; destruct (disconnected_out c t z) as [_ C]; rewrite A, B, C end.
      split; [reflexivity|]. right. left. split; [intros X; apply E in X; discriminate|split; reflexivity].
  - split; [reflexivity|]. right. right. split; [intros []|]. split; [intros []|split; reflexivity].
  - assert (forall s', (lost s' = lost s /\ prim s' = prim s /\ told s' = []) -> prim s' = primary h /\
      ((False /\ lost s' = None /\ told s' = []) \/ (False /\ lost s' = Some t /\ told s' = [t]) \/ (~ False /\ ~ False /\ lost s' = lost s /\ told s' = []))) as G.
    { intros s' (A & B & C). split; [congruence|]. right. right. repeat split; try tauto; assumption. }
    apply G. cbn [fresh lost prim]. destruct (lost s) eqn:E1, (prim s) eqn:E2, w; repeat split; cbn; assumption || reflexivity.
  - cbn [calm] in Hc. destruct x; [contradiction|]. destruct (serve_quiet c (length (queue (fresh s))) t (r && y) (fresh s)) as (A & B & C).
    rewrite A, B, C. split; [exact Hp|]. right. right. split; [intros []|]. split; [intros []|split; reflexivity].
Qed.

Lemma prim_run c t0 h : Forall calm h -> prim (run c t0 h) = primary h.
Proof.
  induction h as [|e h IH]; intros HC.
  - unfold run, init. cbn [fold_right]. destruct (is_master c); reflexivity.
  - inversion HC; subst. apply step_parts; [assumption|]. apply IH. assumption.
Qed.
Lemma told_spec c t0 h e : Forall calm (e :: h) ->
  told (run c t0 (e :: h)) = [time e] /\ downs c h e \/ told (run c t0 (e :: h)) = [] /\ ~ downs c h e.
Proof.
  intros HC. inversion HC; subst. destruct (step_parts c h (run c t0 h) e) as (_ & S); [assumption|apply prim_run; assumption|].
  change (run c t0 (e :: h)) with (step c (run c t0 h) e). destruct S as [(A & _ & B)|[(A & _ & B)|(_ & A & _ & B)]].
  - right. split; [exact B|]. apply ups_not_downs. exact A.
  - left. split; assumption.
  - right. split; assumption.
Qed.
Lemma since_spec c t0 h d : Forall calm h -> (lost (run c t0 h) = Some d <-> since c t0 h d).
Proof.
  revert d. induction h as [|e h IH]; intros d HC.
  - assert (lost (run c t0 []) = Some t0) as -> by (unfold run, init; cbn [fold_right]; destruct (is_master c); reflexivity).
    split; [intros X; injection X as <-; constructor|intros X; inversion X; reflexivity].
  - inversion HC; subst. destruct (step_parts c h (run c t0 h) e) as (_ & S); [assumption|apply prim_run; assumption|].
    change (run c t0 (e :: h)) with (step c (run c t0 h) e). destruct S as [(A & B & _)|[(A & B & _)|(A & A' & B & _)]]; rewrite B.
    + split; [discriminate|]. intros X. inversion X; subst; [exfalso; apply (ups_not_downs c h e A); assumption|contradiction].
    + split; [intros X; injection X as <-; apply since_event; exact A|]. intros X. inversion X; subst; [reflexivity|contradiction].
    + rewrite IH by assumption. split; [intros X; apply since_still; assumption|]. intros X. inversion X; subst; [contradiction|assumption].
Qed.
