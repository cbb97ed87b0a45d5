(** C107: the limiter of actions. *)
From Coq Require Import List ZArith Bool Lia Sorted.
From Verif Require Import Throttle_Model Throttle_Spec.
Import ListNotations.
Open Scope Z_scope.

Section Throttler.
Variable window : Z.
Variable delay : nat -> Z.
Notation trim := (trim window).
Notation acquire := (acquire window delay).
Notation calls := (calls window delay).
Notation log_after := (log_after window delay).

Lemma granted_app a b : granted (a ++ b) = granted a ++ granted b.
Proof. induction a as [|[t [w|]] a IH]; cbn; auto. rewrite IH. reflexivity. Qed.
Lemma calls_app a : forall log b, calls log (a ++ b) = calls log a ++ calls (log_after log a) b.
Proof.
  induction a as [|t a IH]; intros log b; [reflexivity|]. cbn [app Throttle_Model.calls Throttle_Model.log_after fold_left].
  destruct (acquire log t) as [x l'] eqn:E. cbn [snd]. rewrite IH. reflexivity.
Qed.
Lemma sorted_app_le (a b : list Z) : StronglySorted Z.le (a ++ b) -> forall x y, In x a -> In y b -> x <= y.
Proof.
  induction a as [|h a IH]; intros S x y I J; [destruct I|]. inversion S as [|? ? S' F]; subst. destruct I as [<-|I]; [|eauto].
  rewrite Forall_forall in F. apply F, in_or_app. auto.
Qed.
Lemma sorted_snoc (a : list Z) x : StronglySorted Z.le a -> (forall y, In y a -> y <= x) -> StronglySorted Z.le (a ++ [x]).
Proof.
  induction a as [|h a IH]; intros S H; cbn; [repeat constructor|]. inversion S as [|? ? S' F]; subst. constructor.
  - apply IH; auto. intros y I. apply H. right. exact I.
  - apply Forall_forall. intros y I. apply in_app_or in I. destruct I as [I|[<-|[]]]; [rewrite Forall_forall in F; auto|apply H; left; reflexivity].
Qed.
Lemma filter_all (f : Z -> bool) l : (forall x, In x l -> f x = true) -> filter f l = l.
Proof. induction l as [|h l IH]; intros H; cbn; [reflexivity|]. rewrite (H h (or_introl eq_refl)), IH; auto. intros x I. apply H. right. exact I. Qed.
Lemma filter_none (f : Z -> bool) l : (forall x, In x l -> f x = false) -> filter f l = [].
Proof. induction l as [|h l IH]; intros H; cbn; [reflexivity|]. rewrite (H h (or_introl eq_refl)), IH; auto. intros x I. apply H. right. exact I. Qed.
Lemma trim_recent now log : StronglySorted Z.le log -> trim now log = recent window now log.
Proof.
  induction log as [|t q IH]; intros S; [reflexivity|]. inversion S as [|? ? S' F]; subst. cbn [Throttle_Model.trim recent filter].
  rewrite Z.gtb_ltb. destruct (window <? now - t) eqn:E.
  - apply Z.ltb_lt in E. destruct (now - t <=? window) eqn:G; [apply Z.leb_le in G; lia|]. apply IH, S'.
  - apply Z.ltb_ge in E. destruct (now - t <=? window) eqn:G; [|apply Z.leb_gt in G; lia]. f_equal. symmetry. apply filter_all.
    intros x I. rewrite Forall_forall in F. specialize (F x I). apply Z.leb_le. lia.
Qed.

(** the log is the end of what was granted; what is gone is out of the window for good *)
Definition inv (nows : list Z) (g log : list Z) : Prop :=
  exists old, g = old ++ log /\ StronglySorted Z.le g /\ (forall x, In x g -> exists n, In n nows /\ x <= n) /\
  (forall x, In x old -> exists n, In n nows /\ n - x > window).
Lemma inv_run nows : clock nows -> inv nows (granted (calls [] nows)) (log_after [] nows).
Proof.
  induction nows as [|now nows IH] using rev_ind; intros C.
  - exists []. cbn. repeat split; [constructor|intros x []|intros x []].
  - assert (C' : clock nows). { clear - C. induction nows as [|h l IH]; [constructor|]. inversion C as [|? ? S F]; subst. constructor; [apply IH, S|].
      rewrite Forall_forall in *. intros x I. apply F, in_or_app. auto. }
    assert (L : forall n, In n nows -> n <= now) by (intros n I; eapply sorted_app_le; [exact C|exact I|left; reflexivity]).
    destruct (IH C') as (old & G & S & A & B). rewrite calls_app, granted_app. unfold Throttle_Model.log_after. rewrite fold_left_app. fold (log_after [] nows).
    set (g := granted (calls [] nows)) in *. set (log := log_after [] nows) in *. cbn [fold_left Throttle_Model.calls].
    assert (Sl : StronglySorted Z.le log). { rewrite G in S. clear - S. induction old; [exact S|]. inversion S; auto. }
    assert (T : exists gone, log = gone ++ trim now log /\ forall x, In x gone -> now - x > window).
    { clear. induction log as [|t q (gone & E & H)]; [exists []; split; [reflexivity|intros x []]|]. cbn [Throttle_Model.trim].
      rewrite Z.gtb_ltb. destruct (window <? now - t) eqn:F; [|exists []; split; [reflexivity|intros x []]].
      exists (t :: gone). split; [cbn; rewrite <- E; reflexivity|]. apply Z.ltb_lt in F. intros x [<-|I]; [lia|auto]. }
    destruct T as (gone & T & Tg).
    assert (X : snd (acquire log now) = trim now log ++ (if match fst (acquire log now) with None => true | _ => false end then [now] else [])).
    { unfold Throttle_Model.acquire. destruct (trim now log) as [|h r] eqn:E; [reflexivity|].
      destruct (delay (length (h :: r)) <? now - last (h :: r) 0); cbn [fst snd]; [reflexivity|rewrite app_nil_r; reflexivity]. }
    assert (Y : granted (let (a, _) := acquire log now in [(now, a)]) = if match fst (acquire log now) with None => true | _ => false end then [now] else []).
    { destruct (acquire log now) as [[w|] l']; reflexivity. }
    destruct (acquire log now) as [a l'] eqn:Q. cbn [fst snd] in *. rewrite X. cbn [granted] in Y |- *. rewrite Y. clear Y X.
    set (add := if match a with None => true | _ => false end then [now] else []).
    assert (Ad : forall x, In x add -> x = now) by (unfold add; destruct a; intros x I; [destruct I|destruct I as [<-|[]]; reflexivity]).
    exists (old ++ gone). repeat split.
    + rewrite G, T at 1. rewrite <- !app_assoc. reflexivity.
    + unfold add. destruct a as [w|]; [rewrite app_nil_r; exact S|]. apply sorted_snoc; [exact S|]. intros y I. destruct (A y I) as (n & J & K). specialize (L n J). lia.
    + intros x I. apply in_app_or in I. destruct I as [I|I].
      * destruct (A x I) as (n & J & K). exists n. split; [apply in_or_app; auto|exact K].
      * apply Ad in I. subst. exists now. split; [apply in_or_app; right; left; reflexivity|lia].
    + intros x I. apply in_app_or in I. destruct I as [I|I].
      * destruct (B x I) as (n & J & K). exists n. split; [apply in_or_app; auto|exact K].
      * exists now. split; [apply in_or_app; right; left; reflexivity|auto].
Qed.

Lemma acquire_recent nows now : clock (nows ++ [now]) ->
  trim now (log_after [] nows) = recent window now (granted (calls [] nows)).
Proof.
  intros C. assert (C' : clock nows). { clear - C. induction nows as [|h l IH]; [constructor|]. inversion C as [|? ? S F]; subst. constructor; [apply IH, S|].
      rewrite Forall_forall in *. intros x I. apply F, in_or_app. auto. }
  assert (L : forall n, In n nows -> n <= now) by (intros n I; eapply sorted_app_le; [exact C|exact I|left; reflexivity]).
  destruct (inv_run nows C') as (old & G & S & A & B). rewrite G.
  assert (Sl : StronglySorted Z.le (log_after [] nows)). { rewrite G in S. clear - S. induction old; [exact S|]. inversion S; auto. }
  rewrite trim_recent by exact Sl. unfold recent. rewrite filter_app, (filter_none _ old); [reflexivity|].
  intros x I. destruct (B x I) as (n & J & K). specialize (L n J). apply Z.leb_gt. lia.
Qed.
(** Every answer is the one its history of granted calls asks for: old actions do not count, refused calls do not count *)
Theorem C107_answers : forall nows now, clock (nows ++ [now]) ->
  calls [] (nows ++ [now]) = calls [] nows ++ [(now, answer window delay (granted (calls [] nows)) now)].
Proof.
  intros nows now C. rewrite calls_app. f_equal. cbn [Throttle_Model.calls].
  pose proof (acquire_recent nows now C) as E. unfold Throttle_Model.acquire. rewrite E. unfold answer.
  destruct (recent window now (granted (calls [] nows))) as [|h r] eqn:Q; [reflexivity|].
  destruct (delay (length (h :: r)) <? now - last (h :: r) 0); reflexivity.
Qed.
Lemma recent_last now g : g <> [] -> StronglySorted Z.le g -> recent window now g <> [] -> last (recent window now g) 0 = last g 0.
Proof.
  intros N S R. destruct (exists_last N) as (a & x & ->). unfold recent in *. rewrite filter_app in *. cbn [filter] in *.
  destruct (now - x <=? window) eqn:E; [rewrite !last_last; reflexivity|]. exfalso. apply R. rewrite app_nil_r. apply filter_none.
  intros y I. assert (y <= x) by (eapply sorted_app_le; [exact S|exact I|left; reflexivity]). apply Z.leb_gt in E. apply Z.leb_gt. lia.
Qed.
(** Two granted calls, one right after the other: the second is later by more than the window, or by more than the delay for
    the number of granted calls in its window *)
Theorem C107_gap : forall nows now g t, clock (nows ++ [now]) -> granted (calls [] nows) = g ++ [t] ->
  granted (calls [] (nows ++ [now])) = g ++ [t; now] ->
  window < now - t \/ delay (length (recent window now (g ++ [t]))) < now - t.
Proof.
  intros nows now g t C E F. rewrite C107_answers, granted_app, E in F by exact C.
  assert (X : answer window delay (g ++ [t]) now = None).
  { destruct (answer window delay (g ++ [t]) now) as [w|]; [|reflexivity]. cbn in F. rewrite app_nil_r in F.
    apply (f_equal (@length Z)) in F. rewrite !app_length in F. cbn in F. lia. }
  assert (C' : clock nows). { clear - C. induction nows as [|h l IH]; [constructor|]. inversion C as [|? ? S F]; subst. constructor; [apply IH, S|].
      rewrite Forall_forall in *. intros x I. apply F, in_or_app. auto. }
  destruct (inv_run nows C') as (old & _ & S & _). rewrite E in S.
  unfold answer in X. destruct (recent window now (g ++ [t])) as [|h r] eqn:R.
  - left. assert (I : ~ In t (recent window now (g ++ [t]))) by (rewrite R; intros []).
    unfold recent in I. rewrite filter_In in I. destruct (now - t <=? window) eqn:Q; [|apply Z.leb_gt in Q; lia].
    exfalso. apply I. split; [apply in_or_app; right; left; reflexivity|reflexivity].
  - right. assert (Lx : last (h :: r) 0 = t).
    { rewrite <- R. rewrite recent_last, last_last; auto; [destruct g; discriminate|rewrite R; discriminate]. }
    rewrite Lx in X. destruct (delay (length (h :: r)) <? now - t) eqn:Q; [apply Z.ltb_lt in Q; exact Q|discriminate].
Qed.
End Throttler.

(** By default no two actions are granted within one window, however often it is asked *)
Theorem C107_default : forall window nows a t u b, clock nows -> granted (calls window (default_delay window) [] nows) = a ++ t :: u :: b ->
  window < u - t.
Proof.
  intros window nows. induction nows as [|now nows IH] using rev_ind; intros a t u b C E; [destruct a; discriminate|].
  assert (C' : clock nows). { clear - C. induction nows as [|h l IH]; [constructor|]. inversion C as [|? ? S F]; subst. constructor; [apply IH, S|].
      rewrite Forall_forall in *. intros x I. apply F, in_or_app. auto. }
  pose proof (C107_answers window (default_delay window) nows now C) as A.
  pose proof E as E0. rewrite A, granted_app in E. cbn [granted] in E.
  destruct (answer window (default_delay window) (granted (calls window (default_delay window) [] nows)) now) as [w|] eqn:X.
  - rewrite app_nil_r in E. eapply IH; eauto.
  - destruct b as [|b0 b'] using rev_ind.
    + change (t :: u :: []) with ([t] ++ [u]) in E. rewrite app_assoc in E. apply app_inj_tail in E. destruct E as [E <-].
      destruct (C107_gap window (default_delay window) nows now a t C E) as [G|G]; [rewrite E0; reflexivity|exact G|exact G].
    + change (t :: u :: b' ++ [b0]) with ((t :: u :: b') ++ [b0]) in E. rewrite app_assoc in E. apply app_inj_tail in E. destruct E as [E _]. eapply IH; eauto.
Qed.

(** *** the time to wait *)
(** Who is refused and comes again later than told, with nobody granted meanwhile, is granted: if fewer actions mean no longer delay *)
Theorem C107_wait_partial : forall window delay nows now w later,
  (forall a b, (a <= b)%nat -> delay a <= delay b) -> clock (nows ++ [now]) ->
  answer window delay (granted (calls window delay [] nows)) now = Some w -> now + w < later -> now <= later ->
  answer window delay (granted (calls window delay [] nows)) later = None.
Proof.
  intros window delay nows now w later M C A W L. set (g := granted _) in *.
  assert (C' : clock nows). { clear - C. induction nows as [|h l IH]; [constructor|]. inversion C as [|? ? S F]; subst. constructor; [apply IH, S|].
      rewrite Forall_forall in *. intros x I. apply F, in_or_app. auto. }
  destruct (inv_run window delay nows C') as (old & _ & S & _). fold g in S.
  unfold answer in *. destruct (recent window now g) as [|h r] eqn:R; [discriminate|].
  assert (Ng : g <> []) by (intros ->; discriminate).
  assert (La : last (h :: r) 0 = last g 0) by (rewrite <- R; apply recent_last; auto; rewrite R; discriminate). rewrite La in A.
  destruct (delay (length (h :: r)) <? now - last g 0) eqn:D; [discriminate|]. injection A as <-.
  destruct (recent window later g) as [|h' r'] eqn:R'; [reflexivity|].
  assert (Lb : last (h' :: r') 0 = last g 0) by (rewrite <- R'; apply recent_last; auto; rewrite R'; discriminate). rewrite Lb.
  assert (N : (length (h' :: r') <= length (h :: r))%nat).
  { rewrite <- R, <- R'. unfold recent. clear - L. induction g as [|x g IH]; cbn; [lia|].
    destruct (later - x <=? window) eqn:P; destruct (now - x <=? window) eqn:Q; cbn; try lia. }
  specialize (M _ _ N). cbn [length] in M, W |- *.
  clear S. assert (X : (delay (S (length r')) <? later - last g 0) = true) by (apply Z.ltb_lt; lia). rewrite X. reflexivity.
Qed.
(** Who comes again exactly when told is refused once more by default, and told to wait for 0 *)
Theorem C107_wait_refuted : forall window t now w log, acquire window (default_delay window) [t] now = (Some w, log) -> t <= now ->
  acquire window (default_delay window) log (now + w) = (Some 0, log).
Proof.
  intros window t now w log E L. unfold acquire in E. cbn [trim] in E. rewrite Z.gtb_ltb in E. destruct (window <? now - t) eqn:F; [discriminate|].
  cbn [last] in E. unfold default_delay in E. rewrite F in E. injection E as <- <-.
  unfold acquire. cbn [trim]. rewrite Z.gtb_ltb. unfold default_delay. cbn [last]. replace (now + (window - (now - t)) - t) with window by lia.
  rewrite Z.ltb_irrefl. cbn [last]. replace (now + (window - (now - t)) - t) with window by lia. rewrite Z.ltb_irrefl. f_equal. f_equal. lia.
Qed.

Example C107_ex : calls 10 (default_delay 10) [] [0; 3; 10; 11; 20; 22] = [(0, None); (3, Some 7); (10, Some 0); (11, None); (20, Some 1); (22, None)].
Proof. reflexivity. Qed.
Example C107_delay_ex : calls 10 (fun n => Z.of_nat n) [] [0; 1; 2; 4; 5; 8; 11] = [(0, None); (1, Some 0); (2, None); (4, Some 0); (5, None); (8, Some 0); (11, None)].
Proof. reflexivity. Qed.
Example C107_clock_ex : clock [0; 3; 10; 11; 20; 22].
Proof. repeat constructor; lia. Qed.
Example C107_wait_ex : answer 10 (fun n => Z.of_nat n) [0; 2] 3 = Some 1 /\ answer 10 (fun n => Z.of_nat n) [0; 2] 5 = None.
Proof. split; reflexivity. Qed.

Print Assumptions C107_answers.
Print Assumptions C107_gap.
Print Assumptions C107_default.
Print Assumptions C107_wait_partial.
Print Assumptions C107_wait_refuted.
