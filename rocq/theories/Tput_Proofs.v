(** Proofs about Tput_Model.v *)
From Coq Require Import List Arith Bool ZArith QArith Lia Lqa Setoid Morphisms Sorted.
From Verif Require Import Tput_Model Tput_Spec.
Import ListNotations.
Open Scope nat_scope.

(** ** Averages *)
Definition emaf (a v : Q) (l : list Q) : Q := fold_left (fun v x => v * (1 - a) + x * a)%Q l v.

Lemma emaf_app a v l1 l2 : emaf a v (l1 ++ l2) = emaf a (emaf a v l1) l2.
Proof. unfold emaf. apply fold_left_app. Qed.
Lemma emaf_eq a l : forall v v', (v == v')%Q -> (emaf a v l == emaf a v' l)%Q.
Proof.
  induction l as [|x l IH]; cbn; intros v v' H; [exact H|]. apply IH. rewrite H. reflexivity.
Qed.
Lemma emaf_eqs a l l' : Forall2 Qeq l l' -> forall v v', (v == v')%Q -> (emaf a v l == emaf a v' l')%Q.
Proof.
  induction 1 as [|x y l l' Hx _ IH]; cbn; intros v v' H; [exact H|]. apply IH. rewrite H, Hx. reflexivity.
Qed.

(** requests per unit of time *)
Definition per (w : nat) (x : Q) : Q := (x / (Z.of_nat w # 1))%Q.

Lemma rate_per p c : 0 < window p -> (rate p c == per (window p) (Z.of_nat c # 1))%Q.
Proof.
  intros H. unfold rate, per, Qdiv, Qinv, Qeq. destruct (window p) as [|w]; [lia|].
  cbn [Z.of_nat Qnum Qden Qmult]. rewrite Pos.of_nat_succ. cbn [Qnum Qden]. lia.
Qed.

Lemma per_0 w : (per w 0 == 0)%Q.
Proof. unfold per, Qdiv. ring. Qed.

(** ** Stretches *)
Definition is_first {A} (l : list A) : bool := match l with [] => true | _ => false end.
Definition push (ss : list (nat * list nat)) (c : nat) : list (nat * list nat) :=
  let ini := removelast ss in
  let '(e, busy) := last ss (0, []) in
  if c =? 0 then match busy with [] => ini ++ [(S e, [])] | _ => ini ++ [(e, busy); (1, [])] end
  else ini ++ [(e, busy ++ [c])].

Lemma stretches_nonempty l : stretches l <> [].
Proof.
  induction l as [|c l IH]; cbn; [discriminate|].
  destruct (stretches l) as [|[e b] rest]; [congruence|].
  destruct (c =? 0); [congruence|]. destruct e; congruence.
Qed.

Lemma push_cons s ss c : ss <> [] -> push (s :: ss) c = s :: push ss c.
Proof.
  intros H. unfold push. destruct ss as [|t ss]; [congruence|].
  change (removelast (s :: t :: ss)) with (s :: removelast (t :: ss)).
  change (last (s :: t :: ss) (0, [])) with (last (t :: ss) (0, [])).
  destruct (last (t :: ss) (0, [])) as [e b]. destruct (c =? 0); [destruct b|]; reflexivity.
Qed.

Lemma stretches_snoc l c : stretches (l ++ [c]) = push (stretches l) c.
Proof.
  induction l as [|d l IH].
  - cbn. destruct c; cbn; reflexivity.
  - cbn [app stretches]. rewrite IH. pose proof (stretches_nonempty l) as Hne.
    destruct (stretches l) as [|[e b] rest] eqn:E; [congruence|].
    destruct rest as [|r rest].
    + unfold push. cbn [removelast last app].
      destruct d as [|d]; destruct c as [|c]; cbn [Nat.eqb];
      destruct b as [|x b]; destruct e as [|e]; cbn [app]; try reflexivity.
    + assert (Hr : r :: rest <> []) by discriminate.
      rewrite (push_cons (e, b) (r :: rest) c Hr).
      destruct (d =? 0).
      * rewrite (push_cons (S e, b) (r :: rest) c Hr). reflexivity.
      * destruct e.
        -- rewrite (push_cons (0, d :: b) (r :: rest) c Hr). reflexivity.
        -- assert (Hr2 : (S e, b) :: r :: rest <> []) by discriminate.
           rewrite (push_cons (0, [d]) ((S e, b) :: r :: rest) c Hr2), (push_cons (S e, b) (r :: rest) c Hr). reflexivity.
Qed.

Lemma snoc_form {A} (l : list A) (d : A) : l <> [] -> l = removelast l ++ [last l d].
Proof. intros H. apply app_removelast_last. exact H. Qed.
Lemma push_form ini e b c :
  push (ini ++ [(e, b)]) c =
  if c =? 0 then match b with [] => ini ++ [(S e, [])] | _ => ini ++ [(e, b); (1, [])] end else ini ++ [(e, b ++ [c])].
Proof. unfold push. rewrite removelast_last, last_last. reflexivity. Qed.

Definition lev (n : nat) (ss : list (nat * list nat)) : list Q :=
  match ss with [] => [] | s :: rest => level_stretch n true s ++ flat_map (level_stretch n false) rest end.
Lemma lev_snoc n ini s : lev n (ini ++ [s]) = lev n ini ++ level_stretch n (is_first ini) s.
Proof.
  destruct ini as [|t ini]; cbn [app lev is_first flat_map]; [rewrite !app_nil_r; reflexivity|].
  rewrite flat_map_app. cbn [flat_map]. rewrite app_nil_r, app_assoc. reflexivity.
Qed.
Lemma levelled_lev n l : levelled n l = lev n (stretches l).
Proof. reflexivity. Qed.
Lemma reviving_snoc n l ini s : stretches l = ini ++ [s] -> reviving n l = reviving_stretch n (is_first ini) s.
Proof.
  intros H. unfold reviving. rewrite H. destruct ini as [|t ini]; [reflexivity|].
  cbn [app is_first]. destruct (ini ++ [s]) eqn:E; [destruct ini; discriminate|].
  rewrite <- E, last_last. reflexivity.
Qed.

(** ** One window *)
(** the window with [c] requests is over *)
Definition one (p : params) (s : tm) (c : nat) : option tm :=
  match process_window p (TM c (thr s) (wst s) (fst_ts s) (md s) (bef s) (emp s) (rcnt s) (rreq s)) with
  | None => None
  | Some s => Some (TM 0 (thr s) (wst s + window p) (fst_ts s) (md s) (bef s) (emp s) (rcnt s) (rreq s))
  end.

Lemma as_is_app l1 l2 : as_is (l1 ++ l2) = as_is l1 ++ as_is l2.
Proof. apply map_app. Qed.
Lemma repeat_snoc {A} (x : A) n : repeat x (S n) = repeat x n ++ [x].
Proof. induction n as [|n IH]; [reflexivity|]. cbn [repeat app] in *. f_equal. exact IH. Qed.
Lemma total_app l1 l2 : total (l1 ++ l2) = total l1 + total l2.
Proof. induction l1 as [|x l IH]; cbn in *; [reflexivity|]. unfold total in *. lia. Qed.
Lemma total_zeros e : total (repeat 0 e) = 0.
Proof. induction e as [|e IH]; cbn; [reflexivity|exact IH]. Qed.
Lemma mean_level e b : length (mean (repeat 0 e ++ b)) = e + length b.
Proof. unfold mean. rewrite repeat_length, app_length, repeat_length. reflexivity. Qed.
Lemma map_rep {A B} (f : A -> B) x n : map f (repeat x n) = repeat (f x) n.
Proof. induction n as [|n IH]; cbn; [reflexivity|]. f_equal. exact IH. Qed.

Section Window.
Variable p : params.
Hypothesis Hw : 0 < window p.
Hypothesis Hn : 2 <= min_cnt p.

Definition val (o : option Q) (l : list Q) : Prop :=
  exists v, o = Some v /\ (v == ema (alpha p) (map (per (window p)) l))%Q.

Record agrees (ss : list (nat * list nat)) (s : tm) : Prop := {
  ag : exists ini e b, ss = ini ++ [(e, b)] /\ (ini <> [] -> 1 <= e) /\ Forall (fun c => c <> 0) b /\
    match b with
    | [] => val (thr s) (lev (min_cnt p) ini ++ as_is (repeat 0 e)) /\ val (bef s) (lev (min_cnt p) ini) /\ emp s = e /\
            md s = (if faded (min_cnt p) (is_first ini) (e, b) then FADED else IDLE)
    | _ =>
        if reviving_stretch (min_cnt p) (is_first ini) (e, b)
        then thr s = None /\ val (bef s) (lev (min_cnt p) ini) /\ emp s = e /\ md s = REVIVAL /\
             rcnt s = Some (length b) /\ rreq s = Some (total b)
        else val (thr s) (lev (min_cnt p) ini ++ level_stretch (min_cnt p) (is_first ini) (e, b)) /\ md s = NORMAL
    end }.

Lemma val_step o l v x c :
  o = Some v -> val o l -> (x == per (window p) c)%Q -> val (Some (v * (1 - alpha p) + x * alpha p)%Q) (l ++ [c]).
Proof.
  intros Ho (v' & Hv & Hl) Hx. assert (v' = v) by congruence. subst v'. eexists. split; [reflexivity|].
  rewrite map_app. unfold ema. rewrite fold_left_app. cbn [map fold_left].
  change (fold_left (fun v x : Q => v * (1 - alpha p) + x * alpha p)%Q (map (per (window p)) l) 0%Q)
    with (ema (alpha p) (map (per (window p)) l)).
  rewrite Hl, Hx. reflexivity.
Qed.
Lemma val_some o l : val o l -> exists v, o = Some v.
Proof. intros (v & H & _). exists v. exact H. Qed.

Lemma accumulate_n_spec n x : forall v, exists v', accumulate_n p n (Some v) x = Some v' /\ v' = emaf (alpha p) v (repeat x n).
Proof.
  induction n as [|n IH]; cbn; intros v; [eauto|]. apply IH.
Qed.





(** levelling *)
Lemma level_spec s ini e b n l :
  val (bef s) (lev n ini) -> emp s = e -> rcnt s = Some (length b) -> rreq s = Some (total b) -> b <> [] ->
  l = mean (repeat 0 e ++ b) ->
  exists v, level_after_revival p s = Some (with_thr s v) /\ val (Some v) (lev n ini ++ l).
Proof.
  intros (v0 & Hb & Hv) He Hc Hr Hne ->. unfold level_after_revival. rewrite Hc, Hr, He, Hb.
  assert (Hl : 0 < e + length b) by (destruct b; [congruence|cbn; lia]).
  destruct (e + length b =? 0) eqn:E; [apply Nat.eqb_eq in E; lia|].
  set (x := ((Z.of_nat (total b) # Pos.of_nat (e + length b)) / (Z.of_nat (window p) # 1))%Q).
  destruct (accumulate_n_spec (e + length b) x v0) as (v & Ev & Hv'). rewrite Ev.
  exists v. split; [reflexivity|]. exists v. split; [reflexivity|].
  rewrite map_app. change (ema (alpha p)) with (emaf (alpha p) 0). rewrite emaf_app, Hv'.
  apply emaf_eqs; [|exact Hv].
  unfold mean. rewrite app_length, repeat_length, total_app, total_zeros. cbn [Nat.add].
  rewrite map_rep. change (per (window p) (Z.of_nat (total b) # Pos.of_nat (e + length b))) with x.
  clear. generalize (e + length b). intros n. induction n; cbn; constructor; [reflexivity|assumption].
Qed.

Lemma one_agrees ss s c : agrees ss s -> exists s', one p s c = Some s' /\ agrees (push ss c) s' /\
  wst s' = wst s + window p /\ riw s' = 0 /\ fst_ts s' = fst_ts s.
Proof.
  intros [(ini & e & b & Hss & He & Hb & H)]. subst ss. rewrite push_form. unfold one.
  destruct b as [|b0 b].
  - destruct H as (Ht & Hbf & Hemp & Hmd). destruct (val_some _ _ Ht) as (v & Hv).
    destruct (val_some _ _ Hbf) as (bv & Hbv). unfold process_window. cbn [md]. rewrite Hmd.
    destruct (c =? 0) eqn:Hc.
    + apply Nat.eqb_eq in Hc. subst c.
      destruct (faded (min_cnt p) (is_first ini) (e, [])) eqn:Hf.
      * unfold window_faded. cbn [riw Nat.eqb]. unfold accumulate_in. cbn [with_emp thr]. rewrite Hv. cbn [accumulate].
        eexists. split; [reflexivity|]. cbn [thr bef emp md rcnt rreq wst riw fst_ts with_thr with_emp with_mode go_idle]. split; [|auto].
        constructor. exists ini, (S e), []. split; [reflexivity|]. split; [lia|]. split; [constructor|]. cbn [thr bef emp md rcnt rreq wst riw fst_ts with_thr with_emp with_mode go_idle].
        rewrite repeat_snoc, as_is_app, app_assoc. split.
        -- eapply val_step; [exact Hv|exact Ht|]. rewrite per_0. reflexivity.
        -- split; [exact Hbf|]. split; [lia|].
           unfold faded in *. cbn [fst] in *. apply orb_prop in Hf. destruct Hf as [-> | Hf]; [reflexivity|].
           apply Nat.leb_le in Hf. replace (min_cnt p <=? S e) with true by (symmetry; apply Nat.leb_le; lia).
           rewrite orb_true_r. reflexivity.
      * unfold window_idle. cbn [riw Nat.eqb with_emp emp]. rewrite Hemp.
        unfold faded in Hf. cbn [fst] in Hf. apply orb_false_iff in Hf. destruct Hf as (Hf1 & Hf2).
        apply Nat.leb_gt in Hf2.
        assert (Hstep : val (Some (v * (1 - alpha p) + rate p 0 * alpha p)%Q) (lev (min_cnt p) ini ++ as_is (repeat 0 (S e)))).
        { rewrite repeat_snoc, as_is_app, app_assoc. eapply val_step; [exact Hv|exact Ht|].
          apply rate_per. exact Hw. }
        destruct (e + 1 =? min_cnt p) eqn:En.
        -- unfold accumulate_in. cbn [thr with_mode riw]. rewrite Hv. cbn [accumulate].
           eexists. split; [reflexivity|]. cbn [thr bef emp md rcnt rreq wst riw fst_ts with_thr with_emp with_mode go_idle]. split; [|auto].
           constructor. exists ini, (S e), []. split; [reflexivity|]. split; [lia|]. split; [constructor|]. cbn [thr bef emp md rcnt rreq wst riw fst_ts with_thr with_emp with_mode go_idle].
           split; [exact Hstep|]. split; [exact Hbf|]. split; [lia|].
           unfold faded. cbn [fst]. apply Nat.eqb_eq in En.
           replace (min_cnt p <=? S e) with true by (symmetry; apply Nat.leb_le; lia). rewrite orb_true_r. reflexivity.
        -- unfold accumulate_in. cbn [thr with_mode riw]. rewrite Hv. cbn [accumulate].
           eexists. split; [reflexivity|]. cbn [thr bef emp md rcnt rreq wst riw fst_ts with_thr with_emp with_mode go_idle]. split; [|auto].
           constructor. exists ini, (S e), []. split; [reflexivity|]. split; [lia|]. split; [constructor|]. cbn [thr bef emp md rcnt rreq wst riw fst_ts with_thr with_emp with_mode go_idle].
           split; [exact Hstep|]. split; [exact Hbf|]. split; [lia|].
           unfold faded. cbn [fst]. apply Nat.eqb_neq in En.
           replace (min_cnt p <=? S e) with false by (symmetry; apply Nat.leb_gt; lia). rewrite Hf1. cbn. first [exact Hmd|reflexivity].
    + destruct (faded (min_cnt p) (is_first ini) (e, [])) eqn:Hf.
      * unfold window_faded. cbn [riw]. rewrite Hc. eexists. split; [reflexivity|]. cbn [thr bef emp md rcnt rreq wst riw fst_ts with_thr with_emp with_mode go_idle]. split; [|auto].
        constructor. exists ini, e, [c]. split; [reflexivity|]. split; [exact He|].
        split; [constructor; [intros ->; discriminate|constructor]|].
        unfold reviving_stretch, faded in *. cbn [fst snd length] in *. rewrite Hf. cbn [andb Nat.ltb Nat.leb].
        destruct (min_cnt p) as [|[|n]] eqn:En; [lia|lia|]. cbn. rewrite <- En in *.
        repeat split; try assumption; f_equal; lia.
      * unfold window_idle. cbn [riw]. rewrite Hc. unfold accumulate_in. cbn [thr with_mode riw]. rewrite Hv. cbn [accumulate].
        eexists. split; [reflexivity|]. cbn [thr bef emp md rcnt rreq wst riw fst_ts with_thr with_emp with_mode go_idle]. split; [|auto].
        constructor. exists ini, e, [c]. split; [reflexivity|]. split; [exact He|].
        split; [constructor; [intros ->; discriminate|constructor]|].
        unfold reviving_stretch, level_stretch. unfold faded in *. cbn [fst snd] in *. rewrite Hf. cbn [andb].
        split; [|reflexivity]. rewrite as_is_app, app_assoc. eapply val_step; [exact Hv|exact Ht|].
        apply rate_per. exact Hw.
  - destruct (reviving_stretch (min_cnt p) (is_first ini) (e, b0 :: b)) eqn:Hrv.
    + destruct H as (Ht & Hbf & Hemp & Hmd & Hrc & Hrr).
      unfold process_window. cbn [md]. rewrite Hmd. unfold window_revival. cbn [riw].
      pose proof Hrv as Hrv'. unfold reviving_stretch in Hrv'. cbn [snd] in Hrv'.
      apply andb_prop in Hrv'. destruct Hrv' as (Hrv1 & Hlt). apply andb_prop in Hrv1. destruct Hrv1 as (Hf & _).
      apply Nat.ltb_lt in Hlt.
      destruct (c =? 0) eqn:Hc.
      * apply Nat.eqb_eq in Hc. subst c. cbn [Nat.ltb Nat.leb].
        assert (Hls : level_stretch (min_cnt p) (is_first ini) (e, b0 :: b) = mean (repeat 0 e ++ (b0 :: b))).
        { unfold level_stretch. cbn [snd fst]. unfold faded in *. cbn [fst] in *. rewrite Hf.
          rewrite firstn_all2 by lia. rewrite skipn_all2 by lia. cbn [as_is map]. apply app_nil_r. }
        edestruct (level_spec (TM 0 (thr s) (wst s) (fst_ts s) REVIVAL (bef s) (emp s) (rcnt s) (rreq s)) ini e (b0 :: b) (min_cnt p) (level_stretch (min_cnt p) (is_first ini) (e, b0 :: b))) as (v & Ev & Hv);
          [exact Hbf|exact Hemp|exact Hrc|exact Hrr|discriminate|exact Hls|].
        rewrite Ev. unfold accumulate_in. cbn [go_idle thr with_thr accumulate].
        eexists. split; [reflexivity|]. cbn [thr bef emp md rcnt rreq wst riw fst_ts with_thr with_emp with_mode go_idle]. split; [|auto].
        constructor. exists (ini ++ [(e, b0 :: b)]), 1, []. rewrite <- app_assoc. split; [reflexivity|]. split; [lia|]. split; [constructor|].
        rewrite lev_snoc. split.
        -- cbn [repeat as_is map]. eapply val_step; [reflexivity|exact Hv|]. rewrite per_0. reflexivity.
        -- split; [exact Hv|]. split; [reflexivity|].
           unfold faded. cbn [fst]. replace (min_cnt p <=? 1) with false by (symmetry; apply Nat.leb_gt; lia).
           destruct ini; reflexivity.
      * assert (Hc0 : 0 <? c = true) by (apply Nat.ltb_lt; apply Nat.eqb_neq in Hc; lia). rewrite Hc0.
        cbn [rcnt rreq]. rewrite Hrc, Hrr. cbn [thr wst fst_ts md bef emp].
        assert (Hfb : Forall (fun c0 : nat => c0 <> 0) ((b0 :: b) ++ [c])).
        { apply Forall_app. split; [exact Hb|]. constructor; [|constructor]. apply Nat.eqb_neq. exact Hc. }
        assert (Hlen : length ((b0 :: b) ++ [c]) = length (b0 :: b) + 1) by (rewrite app_length; reflexivity).
        assert (Htot : total ((b0 :: b) ++ [c]) = total (b0 :: b) + c) by (rewrite total_app; cbn; lia).
        destruct (length (b0 :: b) + 1 =? min_cnt p) eqn:En.
        -- apply Nat.eqb_eq in En.
           assert (Hls : level_stretch (min_cnt p) (is_first ini) (e, (b0 :: b) ++ [c]) = mean (repeat 0 e ++ ((b0 :: b) ++ [c]))).
           { unfold level_stretch. cbn [snd fst]. unfold faded in *. cbn [fst] in *. rewrite Hf. cbn [app] in *.
             rewrite firstn_all2 by lia. rewrite skipn_all2 by lia. cbn [as_is map]. apply app_nil_r. }
           edestruct (level_spec (TM c (thr s) (wst s) (fst_ts s) REVIVAL (bef s) (emp s) (Some (length (b0 :: b) + 1)) (Some (total (b0 :: b) + c))) ini e ((b0 :: b) ++ [c]) (min_cnt p) (level_stretch (min_cnt p) (is_first ini) (e, (b0 :: b) ++ [c]))) as (v & Ev & Hv);
           [exact Hbf|exact Hemp|cbn [rcnt]; f_equal; lia|cbn [rreq]; f_equal; lia|discriminate|exact Hls|].
           rewrite Ev. eexists. split; [reflexivity|]. cbn [thr bef emp md rcnt rreq wst riw fst_ts with_thr with_emp with_mode go_idle]. split; [|auto].
           constructor. exists ini, e, ((b0 :: b) ++ [c]). split; [reflexivity|]. split; [exact He|]. split; [exact Hfb|].
           cbn [app].
           replace (reviving_stretch (min_cnt p) (is_first ini) (e, b0 :: b ++ [c])) with false.
           2:{ symmetry. unfold reviving_stretch. cbn [snd]. cbn [app] in Hlen. rewrite Hlen.
               replace (length (b0 :: b) + 1 <? min_cnt p) with false by (symmetry; apply Nat.ltb_ge; lia). apply andb_false_r. }
           split; [exact Hv|reflexivity].
        -- apply Nat.eqb_neq in En. eexists. split; [reflexivity|]. cbn [thr bef emp md rcnt rreq wst riw fst_ts with_thr with_emp with_mode go_idle]. split; [|auto].
           constructor. exists ini, e, ((b0 :: b) ++ [c]). split; [reflexivity|]. split; [exact He|]. split; [exact Hfb|].
           cbn [app].
           replace (reviving_stretch (min_cnt p) (is_first ini) (e, b0 :: b ++ [c])) with true.
           2:{ symmetry. unfold reviving_stretch. cbn [snd]. cbn [app] in Hlen. rewrite Hlen.
               unfold faded in *. cbn [fst] in *. rewrite Hf. apply andb_true_intro. split; [|apply Nat.ltb_lt; lia].
               cbn [andb]. apply Nat.ltb_lt. lia. }
           cbn [app] in Hlen, Htot. rewrite Hlen, Htot. cbn. repeat split; assumption.
    + destruct H as (Ht & Hmd). destruct (val_some _ _ Ht) as (v & Hv).
      unfold process_window. cbn [md]. rewrite Hmd. unfold window_normal. cbn [riw].
      destruct (c =? 0) eqn:Hc.
      * apply Nat.eqb_eq in Hc. subst c. unfold accumulate_in. cbn [thr go_idle riw]. rewrite Hv. cbn [accumulate].
        eexists. split; [reflexivity|]. cbn [thr bef emp md rcnt rreq wst riw fst_ts with_thr with_emp with_mode go_idle]. split; [|auto].
        constructor. exists (ini ++ [(e, b0 :: b)]), 1, []. rewrite <- app_assoc. split; [reflexivity|]. split; [lia|]. split; [constructor|].
        rewrite lev_snoc. split.
        -- cbn [repeat as_is map]. eapply val_step; [exact Hv|exact Ht|]. apply rate_per. exact Hw.
        -- split; [rewrite <- Hv; exact Ht|]. split; [reflexivity|].
           unfold faded. cbn [fst]. replace (min_cnt p <=? 1) with false by (symmetry; apply Nat.leb_gt; lia).
           destruct ini; reflexivity.
      * unfold accumulate_in. cbn [thr riw]. rewrite Hv. cbn [accumulate].
        eexists. split; [reflexivity|]. cbn [thr bef emp md rcnt rreq wst riw fst_ts with_thr with_emp with_mode go_idle]. split; [|auto].
        constructor. exists ini, e, ((b0 :: b) ++ [c]). split; [reflexivity|]. split; [exact He|].
        assert (Hfb : Forall (fun c0 : nat => c0 <> 0) ((b0 :: b) ++ [c])).
        { apply Forall_app. split; [exact Hb|]. constructor; [|constructor]. apply Nat.eqb_neq. exact Hc. }
        split; [exact Hfb|]. cbn [app].
        assert (Hlen : length (b0 :: b ++ [c]) = length (b0 :: b) + 1) by (cbn; rewrite app_length; cbn; lia).
        unfold reviving_stretch in *. cbn [snd fst] in *. rewrite Hlen.
        change (0 <? length (b0 :: b)) with true in Hrv.
        replace (0 <? length (b0 :: b) + 1) with true by (symmetry; apply Nat.ltb_lt; lia).
        unfold level_stretch in *. cbn [snd fst] in *. unfold faded in *. cbn [fst] in *.
        destruct (is_first ini || (min_cnt p <=? e)) eqn:Hf.
        -- cbn [andb] in *. apply Nat.ltb_ge in Hrv.
           replace (length (b0 :: b) + 1 <? min_cnt p) with false by (symmetry; apply Nat.ltb_ge; lia).
           split; [|first [exact Hmd|reflexivity]].
           change (b0 :: b ++ [c]) with ((b0 :: b) ++ [c]).
           rewrite firstn_app, skipn_app.
           replace (min_cnt p - length (b0 :: b)) with 0 by lia. cbn [firstn skipn]. rewrite app_nil_r.
           rewrite as_is_app, !app_assoc. rewrite !app_assoc in Ht. eapply val_step; [exact Hv|exact Ht|].
           apply rate_per. exact Hw.
        -- cbn [andb]. split; [|first [exact Hmd|reflexivity]].
           change (b0 :: b ++ [c]) with ((b0 :: b) ++ [c]). rewrite app_assoc, as_is_app, app_assoc.
           eapply val_step; [exact Hv|exact Ht|]. apply rate_per. exact Hw.
Qed.

(** all windows *)
Fixpoint wins (s : tm) (l : list nat) : option tm :=
  match l with [] => Some s | c :: l => match one p s c with None => None | Some s => wins s l end end.

Lemma init_agrees t0 : agrees (stretches []) (init t0).
Proof.
  constructor. exists [], 0, []. split; [reflexivity|]. split; [congruence|]. split; [constructor|].
  cbn. split; [eexists; split; [reflexivity|]; reflexivity|]. split; [eexists; split; [reflexivity|]; reflexivity|].
  split; reflexivity.
Qed.

End Window.

(** ** Calls *)
Definition time (c : call) : nat := match c with Add t => t | Get t => t end.
(** the times at which requests were ordered *)
Definition adds (cs : list call) : list nat := flat_map (fun c => match c with Add t => [t] | Get _ => [] end) cs.

Section Calls.
Variable p : params.
Hypothesis Hw : 0 < window p.
Variable R : list nat -> tm -> Prop.
Hypothesis R_step : forall l s c, R l s -> exists s', one p s c = Some s' /\ R (l ++ [c]) s' /\
  wst s' = wst s + window p /\ riw s' = 0 /\ fst_ts s' = fst_ts s.
Hypothesis R_riw : forall l s n, R l s -> R l (TM n (thr s) (wst s) (fst_ts s) (md s) (bef s) (emp s) (rcnt s) (rreq s)).
Variable t0 : nat.
Hypothesis R_init : R [] (init t0).

Notation W := (window p).

Record hist (s : tm) (reqs : list nat) (n : nat) : Prop := {
  h_wst : wst s = t0 + W * n;
  h_fst : fst_ts s = t0;
  h_riw : riw s = count_in W t0 reqs n;
  h_le : forall r, In r reqs -> window_of W t0 r <= n;
  h_R : R (counts W t0 reqs n) s }.

Lemma counts_S reqs n : counts W t0 reqs (S n) = counts W t0 reqs n ++ [count_in W t0 reqs n].
Proof. unfold counts. rewrite seq_S, map_app. reflexivity. Qed.

Lemma count_in_0 reqs n : (forall r, In r reqs -> window_of W t0 r <= n) -> count_in W t0 reqs (S n) = 0.
Proof.
  intros H. unfold count_in. replace (filter _ reqs) with (@nil nat); [reflexivity|].
  induction reqs as [|r reqs IH]; cbn; [reflexivity|].
  destruct (window_of W t0 r =? S n) eqn:E.
  - apply Nat.eqb_eq in E. specialize (H r (or_introl eq_refl)). lia.
  - apply IH. intros r' Hr'. apply H. right. exact Hr'.
Qed.

Lemma window_of_le n ts : t0 <= ts -> (t0 + W * n + W <= ts <-> S n <= window_of W t0 ts).
Proof.
  intros Hts. unfold window_of. split; intros H.
  - apply Nat.div_le_lower_bound; [lia|]. nia.
  - pose proof (Nat.mul_div_le (ts - t0) W). nia.
Qed.

Lemma one_eta s : (exists s', one p s (riw s) = Some s') -> process_window p s = None -> False.
Proof. intros (s' & H) E. unfold one in H. destruct s; cbn in H, E. rewrite E in H. discriminate. Qed.

Lemma loop_hist ts reqs : t0 <= ts -> forall fuel n s, hist s reqs n -> window_of W t0 ts - n < fuel ->
  exists s', update_loop fuel p ts s = Some s' /\ hist s' reqs (Nat.max n (window_of W t0 ts)).
Proof.
  intros Hts. induction fuel as [|fuel IH]; intros n s H Hf; [lia|]. cbn [update_loop].
  destruct (wst s + W <=? ts) eqn:E.
  - apply Nat.leb_le in E. rewrite (h_wst _ _ _ H) in E. apply (window_of_le n ts Hts) in E.
    destruct (R_step _ s (riw s) (h_R _ _ _ H)) as (s' & E1 & HR & Hw' & Hr' & Hf').
    unfold one in E1. destruct s as [a b c d e f g h i]; cbn [thr wst fst_ts md bef emp rcnt rreq riw] in *.
    destruct (process_window p (TM a b c d e f g h i)) as [s1|]; [|discriminate]. injection E1 as E1.
    rewrite E1. destruct (IH (S n) s') as (s2 & E2 & H2).
    + constructor.
      * pose proof (h_wst _ _ _ H) as Hx. cbn in Hx. nia.
      * pose proof (h_fst _ _ _ H) as Hx. cbn in Hx. congruence.
      * rewrite Hr'. symmetry. apply count_in_0. exact (h_le _ _ _ H).
      * intros r Hr. pose proof (h_le _ _ _ H r Hr). lia.
      * rewrite counts_S. pose proof (h_riw _ _ _ H) as Hx. cbn in Hx. rewrite <- Hx. exact HR.
    + lia.
    + exists s2. split; [exact E2|]. replace (Nat.max n (window_of W t0 ts)) with (Nat.max (S n) (window_of W t0 ts)) by lia. exact H2.
  - exists s. split; [reflexivity|]. apply Nat.leb_gt in E. rewrite (h_wst _ _ _ H) in E.
    assert (Hx : ~ S n <= window_of W t0 ts) by (rewrite <- window_of_le by exact Hts; lia).
    replace (Nat.max n (window_of W t0 ts)) with n by lia. exact H.
Qed.

Lemma update_hist ts reqs n s : t0 <= ts -> hist s reqs n ->
  exists s', update_time p ts s = Some s' /\ hist s' reqs (Nat.max n (window_of W t0 ts)).
Proof.
  intros Hts H. apply loop_hist; [exact Hts|exact H|].
  assert (window_of W t0 ts <= ts - t0) by (unfold window_of; apply Nat.div_le_upper_bound; [lia|nia]). lia.
Qed.

Lemma window_of_mono a b : a <= b -> window_of W t0 a <= window_of W t0 b.
Proof. intros H. unfold window_of. apply Nat.div_le_mono; lia. Qed.

Lemma count_in_app a b i : count_in W t0 (a ++ b) i = count_in W t0 a i + count_in W t0 b i.
Proof. unfold count_in. rewrite filter_app, app_length. reflexivity. Qed.

Lemma counts_add reqs ts n : n <= window_of W t0 ts -> counts W t0 (reqs ++ [ts]) n = counts W t0 reqs n.
Proof.
  intros H. unfold counts. apply map_ext_in. intros i Hi. apply in_seq in Hi. rewrite count_in_app.
  unfold count_in at 2. cbn [filter]. destruct (window_of W t0 ts =? i) eqn:E; cbn; [apply Nat.eqb_eq in E; lia|lia].
Qed.

Lemma call_hist c reqs n s : t0 <= time c -> n <= window_of W t0 (time c) -> hist s reqs n ->
  exists s' n', do_call p s c = Some s' /\ n' <= window_of W t0 (time c) /\ hist s' (reqs ++ adds [c]) n'.
Proof.
  intros Ht Hn H. destruct c as [ts|ts]; cbn [do_call time adds flat_map app] in *.
  - destruct (update_hist ts reqs n s Ht H) as (s' & E & H'). unfold add_request. rewrite E.
    eexists. exists (window_of W t0 ts). split; [reflexivity|]. split; [lia|].
    replace (Nat.max n (window_of W t0 ts)) with (window_of W t0 ts) in H' by lia.
    constructor; cbn [wst fst_ts riw].
    + exact (h_wst _ _ _ H').
    + exact (h_fst _ _ _ H').
    + rewrite count_in_app, (h_riw _ _ _ H'). f_equal. unfold count_in. cbn [filter]. rewrite Nat.eqb_refl. reflexivity.
    + intros r Hr. apply in_app_or in Hr. destruct Hr as [Hr|[<-|[]]]; [exact (h_le _ _ _ H' r Hr)|lia].
    + rewrite counts_add by lia. apply R_riw. exact (h_R _ _ _ H').
  - rewrite app_nil_r. unfold get_throughput.
    destruct (ts <? fst_ts s + W * min_cnt p).
    + exists s, n. repeat split; try lia; apply H.
    + destruct (update_hist ts reqs n s Ht H) as (s' & E & H'). rewrite E.
      exists s', (window_of W t0 ts). replace (Nat.max n (window_of W t0 ts)) with (window_of W t0 ts) in H' by lia.
      split; [reflexivity|]. split; [lia|exact H'].
Qed.

Lemma adds_cons c cs : adds (c :: cs) = adds [c] ++ adds cs.
Proof. unfold adds. cbn [flat_map]. rewrite app_nil_r. reflexivity. Qed.

Lemma run_hist : forall cs reqs n s now ts, StronglySorted le (now :: map time cs ++ [ts]) -> t0 <= now ->
  n <= window_of W t0 now -> hist s reqs n ->
  exists s' n', run p s cs = Some s' /\ n' <= window_of W t0 ts /\ hist s' (reqs ++ adds cs) n'.
Proof.
  induction cs as [|c cs IH]; intros reqs n s now ts Hs Ht Hn H; cbn [run map app] in *.
  - exists s, n. split; [reflexivity|]. split.
    + apply StronglySorted_inv in Hs. destruct Hs as (_ & Hf). inversion Hf; subst.
      pose proof (window_of_mono now ts). lia.
    + cbn. rewrite app_nil_r. exact H.
  - apply StronglySorted_inv in Hs. destruct Hs as (Hs & Hf). inversion Hf; subst.
    pose proof (window_of_mono now (time c)).
    destruct (call_hist c reqs n s) as (s1 & n1 & E & Hn1 & H1); [lia|lia|exact H|]. rewrite E.
    destruct (IH (reqs ++ adds [c]) n1 s1 (time c) ts Hs) as (s2 & n2 & E2 & Hn2 & H2'); [lia|lia|exact H1|].
    exists s2, n2. split; [exact E2|]. split; [exact Hn2|]. rewrite <- app_assoc, <- adds_cons in H2'. exact H2'.
Qed.

Lemma hist_init : hist (init t0) [] 0.
Proof.
  constructor; cbn [init wst fst_ts riw]; [lia|reflexivity|reflexivity|intros r []|exact R_init].
Qed.

Lemma get_spec cs ts : StronglySorted le (t0 :: map time cs ++ [ts]) ->
  exists s, run p (init t0) cs = Some s /\
    if ts <? t0 + W * min_cnt p then get_throughput p ts s = Some (None, s)
    else exists s', get_throughput p ts s = Some (thr s', s') /\ R (counts W t0 (adds cs) (window_of W t0 ts)) s'.
Proof.
  intros Hs. destruct (run_hist cs [] 0 (init t0) t0 ts Hs) as (s & n & E & Hn & H); [lia|lia|exact hist_init|].
  exists s. split; [exact E|]. unfold get_throughput. rewrite (h_fst _ _ _ H).
  destruct (ts <? t0 + W * min_cnt p); [reflexivity|].
  assert (Ht : t0 <= ts).
  { apply StronglySorted_inv in Hs. destruct Hs as (_ & Hf). rewrite Forall_forall in Hf. apply Hf.
    apply in_or_app. right. left. reflexivity. }
  destruct (update_hist ts _ n s Ht H) as (s' & E' & H'). rewrite E'. exists s'. split; [reflexivity|].
  replace (Nat.max n (window_of W t0 ts)) with (window_of W t0 ts) in H' by lia. exact (h_R _ _ _ H').
Qed.

(** Calls at any times: nothing raises, the loop ends *)
Lemma loop_total ts : forall fuel l s, R l s -> 0 < fuel -> ts < fuel + wst s ->
  exists s' l', update_loop fuel p ts s = Some s' /\ R l' s'.
Proof.
  induction fuel as [|fuel IH]; intros l s H H0 Hf; [lia|]. cbn [update_loop].
  destruct (wst s + W <=? ts) eqn:E; [|eauto].
  apply Nat.leb_le in E. destruct (R_step _ s (riw s) H) as (s' & E1 & HR & Hw' & Hr' & Hf').
  unfold one in E1. destruct s as [a b c d e f g h i]; cbn [thr wst fst_ts md bef emp rcnt rreq riw] in *.
  destruct (process_window p (TM a b c d e f g h i)) as [s1|]; [|discriminate]. injection E1 as E1.
  rewrite E1. apply (IH _ s' HR); lia.
Qed.

Lemma call_total c l s : R l s -> exists s' l', do_call p s c = Some s' /\ R l' s'.
Proof.
  intros H. destruct c as [ts|ts]; cbn [do_call]; unfold add_request, get_throughput, update_time.
  - destruct (loop_total ts (S ts) l s H) as (s' & l' & E & H'); [lia|lia|]. rewrite E. eexists. exists l'. split; [reflexivity|].
    apply R_riw. exact H'.
  - destruct (ts <? fst_ts s + W * min_cnt p); [eauto|].
    destruct (loop_total ts (S ts) l s H) as (s' & l' & E & H'); [lia|lia|]. rewrite E. eauto.
Qed.
Lemma run_total : forall cs l s, R l s -> exists s' l', run p s cs = Some s' /\ R l' s'.
Proof.
  induction cs as [|c cs IH]; intros l s H; cbn [run]; [eauto|].
  destruct (call_total c l s H) as (s' & l' & E & H'). rewrite E. exact (IH l' s' H').
Qed.

End Calls.

(** ** The two instances *)
Lemma agrees_riw p ss s n : agrees p ss s -> agrees p ss (TM n (thr s) (wst s) (fst_ts s) (md s) (bef s) (emp s) (rcnt s) (rreq s)).
Proof. intros [H]. constructor. cbn [thr md bef emp rcnt rreq]. exact H. Qed.

Definition Rel (p : params) (l : list nat) (s : tm) : Prop := agrees p (stretches l) s.
Lemma Rel_step p : 0 < window p -> 2 <= min_cnt p -> forall l s c, Rel p l s -> exists s', one p s c = Some s' /\ Rel p (l ++ [c]) s' /\
  wst s' = wst s + window p /\ riw s' = 0 /\ fst_ts s' = fst_ts s.
Proof. intros Hw Hn l s c H. unfold Rel in *. rewrite stretches_snoc. exact (one_agrees p Hw Hn _ s c H). Qed.

Lemma stretches_form l : exists ini e b, stretches l = ini ++ [(e, b)].
Proof.
  pose proof (snoc_form (stretches l) (0, []) (stretches_nonempty l)) as H.
  destruct (last (stretches l) (0, [])) as [e b]. eauto.
Qed.

Lemma Rel_thr p l s : 2 <= min_cnt p -> Rel p l s ->
  if reviving (min_cnt p) l then thr s = None else val p (thr s) (levelled (min_cnt p) l).
Proof.
  intros Hn [(ini & e & b & Hss & He & Hb & H)].
  rewrite (reviving_snoc _ _ _ _ Hss), levelled_lev, Hss, lev_snoc.
  destruct b as [|c b].
  - unfold reviving_stretch. cbn [snd length]. change (0 <? 0) with false. rewrite andb_false_r. cbn [andb].
    exact (proj1 H).
  - destruct (reviving_stretch (min_cnt p) (is_first ini) (e, c :: b)); exact (proj1 H).
Qed.

(** with a count of 1 the measure never comes back while requests are ordered *)
Definition Rel1 (p : params) (l : list nat) (s : tm) : Prop :=
  (exists v, bef s = Some v) /\
  match md s with
  | REVIVAL => exists k r, rcnt s = Some (S k) /\ rreq s = Some r /\ thr s = None
  | _ => exists v, thr s = Some v
  end /\
  (l = [] -> md s = FADED) /\ (l <> [] -> Forall (fun c => c <> 0) l -> md s = REVIVAL).
Lemma accumulate_n_some p n x : forall v, exists v', accumulate_n p n (Some v) x = Some v'.
Proof. induction n as [|n IH]; cbn; intros v; [eauto|apply IH]. Qed.
Lemma level_some p s v k r : bef s = Some v -> rcnt s = Some (S k) -> rreq s = Some r ->
  exists v', level_after_revival p s = Some (with_thr s v').
Proof.
  intros Hb Hc Hr. unfold level_after_revival. rewrite Hc, Hr, Hb.
  destruct (emp s + S k =? 0) eqn:E; [apply Nat.eqb_eq in E; lia|].
  destruct (accumulate_n_some p (emp s + S k) ((Z.of_nat r # Pos.of_nat (emp s + S k)) / (Z.of_nat (window p) # 1))%Q v) as (v' & ->).
  eauto.
Qed.
Lemma Rel1_step p : min_cnt p = 1 -> forall l s c, Rel1 p l s -> exists s', one p s c = Some s' /\ Rel1 p (l ++ [c]) s' /\
  wst s' = wst s + window p /\ riw s' = 0 /\ fst_ts s' = fst_ts s.
Proof.
  intros Hn l s c ((v & Hb) & Hm & Hl0 & Hl). unfold one, process_window. cbn [md].
  assert (Hne : l ++ [c] <> []) by (destruct l; discriminate).
  destruct (md s) eqn:Em.
  - destruct Hm as (t & Ht). unfold window_normal. cbn [riw].
    destruct (c =? 0) eqn:Ec; unfold accumulate_in; cbn [thr go_idle riw]; rewrite Ht; cbn [accumulate];
      eexists; (split; [reflexivity|]); cbn [thr bef emp md rcnt rreq wst riw fst_ts with_thr with_emp with_mode go_idle];
      (split; [|auto]); unfold Rel1; cbn [thr bef emp md rcnt rreq wst riw fst_ts with_thr].
    + split; [eauto|]. split; [eauto|]. split; [congruence|]. intros _ Hf. apply Forall_app in Hf. destruct Hf as (_ & Hf).
      inversion Hf; subst. apply Nat.eqb_eq in Ec. congruence.
    + split; [eauto|]. split; [eauto|]. split; [congruence|]. intros _ Hf. apply Forall_app in Hf. destruct Hf as (Hf & _).
      destruct l; [specialize (Hl0 eq_refl); discriminate|]. specialize (Hl ltac:(discriminate) Hf). discriminate.
  - destruct Hm as (t & Ht). unfold window_idle. cbn [riw with_emp emp]. 
    assert (Hx : forall m, m <> REVIVAL -> forall x e', exists s', Some (TM 0 (Some x) (wst s + window p) (fst_ts s) m (bef s) e' (rcnt s) (rreq s)) = Some s' /\ Rel1 p (l ++ [c]) s' /\ wst s' = wst s + window p /\ riw s' = 0 /\ fst_ts s' = fst_ts s).
    { intros m Hmm x e'. eexists. split; [reflexivity|]. cbn. split; [|auto]. unfold Rel1. cbn. split; [eauto|].
      split; [destruct m; [eauto|eauto|eauto|congruence]|]. split; [congruence|]. intros _ Hf. apply Forall_app in Hf. destruct Hf as (Hf & _).
      destruct l; [specialize (Hl0 eq_refl); discriminate|]. specialize (Hl ltac:(discriminate) Hf). discriminate. }
    destruct (c =? 0) eqn:Ec; [destruct (emp s + 1 =? min_cnt p) eqn:Ee|]; unfold accumulate_in;
      cbn [thr with_mode with_emp riw]; rewrite Ht; cbn [accumulate with_thr thr wst fst_ts md bef emp rcnt rreq]; apply Hx; discriminate.
  - destruct Hm as (t & Ht). unfold window_faded. cbn [riw with_emp emp].
    destruct (c =? 0) eqn:Ec.
    + unfold accumulate_in. cbn [thr with_emp]. rewrite Ht. cbn [accumulate]. eexists. split; [reflexivity|]. cbn. split; [|auto].
      unfold Rel1. cbn. split; [eauto|]. split; [eauto|]. split; [congruence|].
      intros _ Hf. apply Forall_app in Hf. destruct Hf as (_ & Hf). inversion Hf; subst. apply Nat.eqb_eq in Ec. congruence.
    + eexists. split; [reflexivity|]. cbn. split; [|auto]. unfold Rel1. cbn. split; [eauto|]. split; [eauto|].
      split; [congruence|]. reflexivity.
  - destruct Hm as (k & r & Hc & Hr & Ht). unfold window_revival. cbn [riw rcnt rreq].
    destruct (0 <? c) eqn:Ec.
    + rewrite Hc, Hr. replace (S k + 1 =? min_cnt p) with false by (symmetry; apply Nat.eqb_neq; lia).
      eexists. split; [reflexivity|]. cbn. split; [|auto]. unfold Rel1. cbn. split; [eauto|].
      split; [exists (k + 1); eauto|]. split; [congruence|]. reflexivity.
    + destruct (level_some p (TM c (thr s) (wst s) (fst_ts s) REVIVAL (bef s) (emp s) (rcnt s) (rreq s)) v k r Hb Hc Hr) as (v' & E).
      rewrite E. unfold accumulate_in. cbn [thr go_idle with_thr accumulate]. eexists. split; [reflexivity|]. cbn. split; [|auto].
      unfold Rel1. cbn. split; [eauto|]. split; [eauto|]. split; [congruence|].
      intros _ Hf. apply Forall_app in Hf. destruct Hf as (_ & Hf). inversion Hf; subst. apply Nat.ltb_ge in Ec. lia.
Qed.
Lemma Rel1_riw p l s n : Rel1 p l s -> Rel1 p l (TM n (thr s) (wst s) (fst_ts s) (md s) (bef s) (emp s) (rcnt s) (rreq s)).
Proof. intros H. exact H. Qed.
Lemma Rel1_init p t0 : Rel1 p [] (init t0).
Proof. unfold Rel1. cbn. split; [eauto|]. split; [eauto|]. split; [reflexivity|congruence]. Qed.

(** ** About the specification *)
Fixpoint qsum (l : list Q) : Q := match l with [] => 0 | x :: l => x + qsum l end.
Definition flat (ss : list (nat * list nat)) : list nat := flat_map (fun s => repeat 0 (fst s) ++ snd s) ss.
Lemma stretches_flat l : flat (stretches l) = l.
Proof.
  unfold flat. induction l as [|c l IH]; [reflexivity|]. cbn [stretches].
  destruct (stretches l) as [|[e b] rest] eqn:E; [exfalso; exact (stretches_nonempty l E)|].
  destruct (c =? 0) eqn:Ec.
  - apply Nat.eqb_eq in Ec. subst c. cbn in *. f_equal. exact IH.
  - destruct e; cbn in *; f_equal; exact IH.
Qed.
Lemma as_is_length l : length (as_is l) = length l.
Proof. apply map_length. Qed.
Lemma qsum_app a b : (qsum (a ++ b) == qsum a + qsum b)%Q.
Proof. induction a as [|x a IH]; cbn; [ring|]. rewrite IH. ring. Qed.
Lemma qnat_plus a b : (Z.of_nat (a + b) # 1 == (Z.of_nat a # 1) + (Z.of_nat b # 1))%Q.
Proof. unfold Qeq, Qplus. cbn. lia. Qed.
Lemma qsum_as_is l : (qsum (as_is l) == Z.of_nat (total l) # 1)%Q.
Proof.
  induction l as [|c l IH]; cbn; [reflexivity|]. unfold as_is in IH. rewrite IH. symmetry. apply qnat_plus.
Qed.
Lemma qsum_repeat x n : (qsum (repeat x n) == (Z.of_nat n # 1) * x)%Q.
Proof.
  induction n as [|n IH]; [cbn [repeat qsum Z.of_nat]; ring|].
  change (qsum (repeat x (S n))) with (x + qsum (repeat x n))%Q. rewrite IH.
  replace (S n) with (1 + n) by lia. rewrite qnat_plus. change (Z.of_nat 1 # 1)%Q with 1%Q. ring.
Qed.
Lemma qsum_mean l : (qsum (mean l) == Z.of_nat (total l) # 1)%Q.
Proof.
  unfold mean. rewrite qsum_repeat. destruct l as [|c l]; [reflexivity|].
  unfold Qeq, Qmult. cbn [Qnum Qden]. set (n := length (c :: l)). assert (0 < n) by (cbn in n; lia). clearbody n.
  rewrite Pos.mul_1_l. rewrite <- (Nat2Pos.id n) at 1 by lia. rewrite positive_nat_Z. lia.
Qed.
Lemma level_stretch_length n f s : length (level_stretch n f s) = fst s + length (snd s).
Proof.
  destruct s as [e b]. unfold level_stretch. cbn [fst snd]. destruct b as [|c b].
  - rewrite as_is_length, repeat_length. cbn. lia.
  - destruct (faded n f (e, c :: b)).
    + rewrite app_length, mean_level, as_is_length. rewrite <- (firstn_skipn n (c :: b)) at 3. rewrite app_length. lia.
    + rewrite as_is_length, app_length, repeat_length. reflexivity.
Qed.
Lemma level_stretch_sum n f s : (qsum (level_stretch n f s) == Z.of_nat (total (snd s)) # 1)%Q.
Proof.
  destruct s as [e b]. unfold level_stretch. cbn [fst snd]. destruct b as [|c b].
  - rewrite qsum_as_is, total_zeros. reflexivity.
  - destruct (faded n f (e, c :: b)).
    + rewrite qsum_app, qsum_mean, qsum_as_is, <- qnat_plus.
      rewrite total_app, total_zeros. cbn [Nat.add]. rewrite <- total_app, firstn_skipn. reflexivity.
    + rewrite qsum_as_is, total_app, total_zeros. reflexivity.
Qed.
Lemma flat_cons s ss : flat (s :: ss) = (repeat 0 (fst s) ++ snd s) ++ flat ss.
Proof. reflexivity. Qed.
Lemma flat_level_length n ss : length (flat_map (level_stretch n false) ss) = length (flat ss).
Proof.
  induction ss as [|s ss IH]; [reflexivity|]. cbn [flat_map]. rewrite flat_cons, !app_length, level_stretch_length, repeat_length, IH. reflexivity.
Qed.
Lemma flat_level_sum n ss : (qsum (flat_map (level_stretch n false) ss) == Z.of_nat (total (flat ss)) # 1)%Q.
Proof.
  induction ss as [|s ss IH]; [reflexivity|]. cbn [flat_map].
  rewrite flat_cons, qsum_app, IH, level_stretch_sum, <- qnat_plus, !total_app, total_zeros. reflexivity.
Qed.
Lemma lev_length n ss : length (lev n ss) = length (flat ss).
Proof.
  destruct ss as [|s ss]; [reflexivity|]. cbn [lev]. rewrite flat_cons, !app_length, level_stretch_length, repeat_length, flat_level_length. reflexivity.
Qed.
Lemma lev_sum n ss : (qsum (lev n ss) == Z.of_nat (total (flat ss)) # 1)%Q.
Proof.
  destruct ss as [|s ss]; [reflexivity|]. cbn [lev].
  rewrite flat_cons, qsum_app, flat_level_sum, level_stretch_sum, <- qnat_plus, !total_app, total_zeros. reflexivity.
Qed.

(** bounds *)
Lemma total_le l M : Forall (fun c => c <= M) l -> total l <= length l * M.
Proof. induction 1; cbn in *; [lia|]. unfold total in *. lia. Qed.
Definition within (M : nat) (x : Q) : Prop := (0 <= x /\ x <= Z.of_nat M # 1)%Q.
Lemma within_as_is l M : Forall (fun c => c <= M) l -> Forall (within M) (as_is l).
Proof.
  induction 1; cbn; constructor; [|assumption]. unfold within, Qle. cbn. split; lia.
Qed.
Lemma within_mean l M : Forall (fun c => c <= M) l -> Forall (within M) (mean l).
Proof.
  intros H. pose proof (total_le l M H) as Ht. unfold mean. destruct l as [|c l]; [constructor|].
  set (n := length (c :: l)) in *. assert (Hn : 0 < n) by (cbn in n; lia). generalize (total (c :: l)), Ht. clear -Hn. intros t Ht.
  assert (Hx : within M (Z.of_nat t # Pos.of_nat n)%Q).
  { unfold within, Qle. cbn [Qnum Qden]. rewrite <- positive_nat_Z, Nat2Pos.id by lia. split; nia. }
  clear Ht Hn. generalize n at 2. intros k. induction k; cbn; constructor; assumption.
Qed.
Lemma zeros_le e M : Forall (fun c => c <= M) (repeat 0 e).
Proof. induction e; cbn; constructor; [lia|assumption]. Qed.
Lemma within_stretch n f s M : Forall (fun c => c <= M) (snd s) -> Forall (within M) (level_stretch n f s).
Proof.
  destruct s as [e b]. unfold level_stretch. cbn [fst snd]. intros H. destruct b as [|c b].
  - apply within_as_is. apply zeros_le.
  - destruct (faded n f (e, c :: b)).
    + rewrite <- (firstn_skipn n (c :: b)) in H. apply Forall_app in H. destruct H as (H1 & H2).
      apply Forall_app. split; [apply within_mean|apply within_as_is; exact H2].
      apply Forall_app. split; [apply zeros_le|exact H1].
    + apply within_as_is. apply Forall_app. split; [apply zeros_le|exact H].
Qed.
Lemma within_lev n ss M : Forall (fun c => c <= M) (flat ss) -> Forall (within M) (lev n ss).
Proof.
  intros H. assert (Hs : forall s, In s ss -> Forall (fun c => c <= M) (snd s)).
  { intros s Hs. unfold flat in H. rewrite Forall_forall in *. intros c Hc. apply H. apply in_flat_map. exists s. split; [exact Hs|].
    apply in_or_app. right. exact Hc. }
  destruct ss as [|s ss]; cbn [lev]; [constructor|]. apply Forall_app. split.
  - apply within_stretch. apply Hs. left. reflexivity.
  - apply Forall_forall. intros x Hx. apply in_flat_map in Hx. destruct Hx as (t & Ht & Hx).
    pose proof (within_stretch n false t M (Hs t (or_intror Ht))) as Hf. rewrite Forall_forall in Hf. exact (Hf x Hx).
Qed.

Lemma alpha_pos p : (0 < alpha p)%Q.
Proof. reflexivity. Qed.
Lemma alpha_le p : 1 <= min_cnt p -> (alpha p <= 1)%Q.
Proof. intros H. unfold alpha, Qle. cbn [Qnum Qden]. lia. Qed.
Lemma emaf_bounds a lo hi l : (0 <= a)%Q -> (a <= 1)%Q -> Forall (fun x => lo <= x /\ x <= hi)%Q l ->
  forall v, (lo <= v)%Q -> (v <= hi)%Q -> (lo <= emaf a v l /\ emaf a v l <= hi)%Q.
Proof.
  intros Ha0 Ha1. induction 1 as [|x l (Hx1 & Hx2) _ IH]; cbn; intros v H1 H2; [split; assumption|].
  apply IH.
  - setoid_replace lo with (lo * (1 - a) + lo * a)%Q by ring. apply Qplus_le_compat; apply Qmult_le_compat_r; lra.
  - setoid_replace hi with (hi * (1 - a) + hi * a)%Q by ring. apply Qplus_le_compat; apply Qmult_le_compat_r; lra.
Qed.
Lemma per_within w M x : 0 < w -> within M x -> (0 <= per w x /\ per w x <= per w (Z.of_nat M # 1))%Q.
Proof.
  intros Hw (H1 & H2). unfold per, Qdiv.
  assert (Hi : (0 <= / (Z.of_nat w # 1))%Q).
  { apply Qlt_le_weak. apply Qinv_lt_0_compat. unfold Qlt. cbn. lia. }
  split.
  - setoid_replace 0%Q with (0 * / (Z.of_nat w # 1))%Q by ring. apply Qmult_le_compat_r; assumption.
  - apply Qmult_le_compat_r; assumption.
Qed.

(** an empty window more *)
Lemma levelled_0 n l : levelled n (l ++ [0]) = levelled n l ++ [0%Q].
Proof.
  rewrite !levelled_lev, stretches_snoc. destruct (stretches_form l) as (ini & e & b & ->). rewrite push_form. cbn [Nat.eqb].
  destruct b as [|c b].
  - rewrite !lev_snoc, <- app_assoc. f_equal. unfold level_stretch. cbn [snd fst]. rewrite repeat_snoc, as_is_app. reflexivity.
  - change [(e, c :: b); (1, [])] with ([(e, c :: b)] ++ [(1, @nil nat)]). rewrite app_assoc, (lev_snoc n (ini ++ [(e, c :: b)])). reflexivity.
Qed.
Lemma levelled_zeros n l m : levelled n (l ++ repeat 0 m) = levelled n l ++ repeat 0%Q m.
Proof.
  induction m as [|m IH]; cbn [repeat]; [rewrite !app_nil_r; reflexivity|].
  change (0 :: repeat 0 m) with (repeat 0 (S m)). change (0%Q :: repeat 0%Q m) with (repeat 0%Q (S m)).
  rewrite !repeat_snoc, !app_assoc, levelled_0, IH. reflexivity.
Qed.
Lemma reviving_0 n l : reviving n (l ++ [0]) = false.
Proof.
  destruct (stretches_form l) as (ini & e & b & E).
  pose proof (stretches_snoc l 0) as Hs. rewrite E, push_form in Hs. cbn [Nat.eqb] in Hs. destruct b as [|c b].
  - rewrite (reviving_snoc n _ ini (S e, []) Hs). unfold reviving_stretch. cbn [snd length]. change (0 <? 0) with false.
    rewrite andb_false_r. reflexivity.
  - change [(e, c :: b); (1, [])] with ([(e, c :: b)] ++ [(1, @nil nat)]) in Hs. rewrite app_assoc in Hs.
    rewrite (reviving_snoc n _ _ (1, []) Hs). unfold reviving_stretch. cbn [snd length]. change (0 <? 0) with false.
    rewrite andb_false_r. reflexivity.
Qed.

(** the same number of requests in every window *)
Lemma stretches_busy l : Forall (fun c => c <> 0) l -> stretches l = [(0, l)].
Proof.
  induction 1 as [|c l Hc _ IH]; cbn [stretches]; [reflexivity|]. rewrite IH.
  destruct (c =? 0) eqn:E; [apply Nat.eqb_eq in E; congruence|]. reflexivity.
Qed.
Lemma repeat_ne k m : k <> 0 -> Forall (fun c => c <> 0) (repeat k m).
Proof. intros H. induction m; cbn; constructor; assumption. Qed.
Lemma firstn_rep {A} (x : A) n m : firstn n (repeat x m) = repeat x (Nat.min n m).
Proof. revert m. induction n as [|n IH]; intros [|m]; cbn; [reflexivity..|]. f_equal. apply IH. Qed.
Lemma skipn_rep {A} (x : A) n m : skipn n (repeat x m) = repeat x (m - n).
Proof. revert m. induction n as [|n IH]; intros [|m]; cbn; [reflexivity..|]. apply IH. Qed.
Lemma total_rep k m : total (repeat k m) = m * k.
Proof. induction m as [|m IH]; cbn in *; [reflexivity|]. unfold total in *. lia. Qed.
Lemma mean_rep k m : Forall2 Qeq (mean (repeat k m)) (repeat (Z.of_nat k # 1)%Q m).
Proof.
  unfold mean. rewrite repeat_length, total_rep. destruct m as [|m]; [constructor|].
  assert (Hx : (Z.of_nat (S m * k) # Pos.of_nat (S m) == Z.of_nat k # 1)%Q).
  { unfold Qeq. cbn [Qnum Qden]. rewrite <- (positive_nat_Z (Pos.of_nat (S m))), Nat2Pos.id by lia. lia. }
  revert Hx. generalize (Z.of_nat (S m * k) # Pos.of_nat (S m))%Q. intros x Hx.
  induction (S m) as [|j IH]; cbn; constructor; assumption.
Qed.
Lemma levelled_steady n k m : k <> 0 -> Forall2 Qeq (levelled n (repeat k m)) (repeat (Z.of_nat k # 1)%Q m).
Proof.
  intros Hk. rewrite levelled_lev, (stretches_busy _ (repeat_ne k m Hk)). cbn [lev flat_map]. rewrite app_nil_r.
  unfold level_stretch. cbn [snd fst]. destruct (repeat k m) as [|c b] eqn:E.
  - destruct m; [constructor|discriminate].
  - rewrite <- E. unfold faded. cbn [orb repeat app]. rewrite firstn_rep, skipn_rep.
    replace m with (Nat.min n m + (m - n)) at 3 by lia. rewrite repeat_app. apply Forall2_app; [apply mean_rep|].
    unfold as_is. rewrite map_rep. clear. induction (m - n); cbn; constructor; [reflexivity|assumption].
Qed.
Lemma reviving_steady n k m : k <> 0 -> n <= m -> reviving n (repeat k m) = false.
Proof.
  intros Hk H. rewrite (reviving_snoc n _ [] (0, repeat k m) (stretches_busy _ (repeat_ne k m Hk))).
  unfold reviving_stretch. cbn [snd]. rewrite repeat_length. replace (m <? n) with false by (symmetry; apply Nat.ltb_ge; exact H).
  apply andb_false_r.
Qed.

Fixpoint qpow (x : Q) (n : nat) : Q := match n with O => 1 | S n => x * qpow x n end.
Lemma emaf_const a x m : forall v, (emaf a v (repeat x m) == v * qpow (1 - a) m + x * (1 - qpow (1 - a) m))%Q.
Proof.
  induction m as [|m IH]; intros v; cbn [repeat emaf fold_left qpow]; [ring|].
  change (fold_left (fun v0 x0 : Q => v0 * (1 - a) + x0 * a)%Q (repeat x m) (v * (1 - a) + x * a)%Q)
    with (emaf a (v * (1 - a) + x * a)%Q (repeat x m)).
  rewrite IH. ring.
Qed.
