(** C94: batches of earlier views are applied again after a NewView. *)
From Coq Require Import List Arith Bool Lia.
From Verif Require Import Reapply_Model Reapply_Spec Reapply_Proofs.
Import ListNotations.

(** A replica of view 1 that ordered nothing and holds batches 1 and 2 of view 0 (and a message that waits). *)
Definition b1 : bid := Bid 0 0 1 11. Definition b2 : bid := Bid 0 0 2 12. Definition b3 : bid := Bid 0 0 3 13.
Definition p1 : pp := PP 0 0 1 100 11 11 5. Definition p2 : pp := PP 0 0 2 101 12 12 5. Definition p3 : pp := PP 0 0 3 102 13 13 5.
Definition rep0 (v : nat) (ns : list bid) (c o : nat) (held : list pp) : rep :=
  Rep v ns c o o 0 (map (fun p => (key_of p, p)) held) [] [] [] [] [] [] [] [7] [].
Definition dg (v t r : nat) : nat := r.
Definition val (done : list pp) (p : pp) : bool := p_rest p =? 5.
Lemma fresh_rep0 v ns c o held : fresh (rep0 v ns c o held).
Proof.
  repeat split. cbn [old rep0]. intros k p H. apply in_map_iff in H as (q & E & _). inversion E. reflexivity.
Qed.

(** Whatever answers come, from whomever: a batch that the replica has accepted in the new view is one of those that the NewView names. *)
Theorem C94_named : forall digest_of valid dev s0 now os k p, fresh s0 ->
  In (k, p) (pps (run digest_of valid dev (start digest_of valid dev s0 now) os)) ->
  k = p_seq p /\ p_view p = view s0 /\ exists b, In b (names s0) /\ named b p.
Proof. intros digest_of valid dev s0 now os k p F H. exact (i_pps _ _ _ (inv_run digest_of valid dev s0 os _ (inv_start digest_of valid dev s0 now F)) k p H). Qed.

(** Batches are applied one after the other from the one after the last ordered, and what is applied is what the digest stands for. *)
Theorem C94_order : forall digest_of valid dev s0 now os, fresh s0 ->
  let s := run digest_of valid dev (start digest_of valid dev s0 now) os in
  map p_seq (applied s) = seq (S (ordered s0)) (length (applied s)).
Proof. intros digest_of valid dev s0 now os F. exact (i_seq _ _ _ (inv_run digest_of valid dev s0 os _ (inv_start digest_of valid dev s0 now F))). Qed.
Theorem C94_digest : forall digest_of valid dev s0 now os p, fresh s0 ->
  In p (applied (run digest_of valid dev (start digest_of valid dev s0 now) os)) ->
  (exists b, In b (names s0) /\ named b p) /\ digest_of (p_orig p) (p_time p) (p_reqs p) = p_digest p.
Proof.
  intros digest_of valid dev s0 now os p F H.
  destruct (i_app _ _ _ (inv_run digest_of valid dev s0 os _ (inv_start digest_of valid dev s0 now F)) p H) as [(_ & _ & E) D]. now split.
Qed.

(** What is not held is asked for, once, and nothing else is. *)
Theorem C94_asks : forall digest_of valid dev s0 now os, fresh s0 ->
  let s := run digest_of valid dev (start digest_of valid dev s0 now) os in
  length (asked s) <= 1 /\
  forall b, In b (concat (asked s)) <-> In b (names s0) /\ ~ exists p, holds s0 b p.
Proof.
  intros digest_of valid dev s0 now os (_ & _ & _ & _ & _ & _ & A & _). cbv zeta.
  destruct (run_keeps digest_of valid dev os (start digest_of valid dev s0 now)) as [_ E].
  destruct (start_keeps digest_of valid dev s0 now) as (_ & E2 & _).
  rewrite E, E2, A, app_nil_l.
  assert (X : forall b, In b (filter (is_missing s0) (names s0)) <-> In b (names s0) /\ ~ exists p, holds s0 b p).
  { intros b. rewrite filter_In. unfold is_missing, held, holds. split; intros [H1 H2]; (split; [exact H1|]).
    - apply get_none. destruct (get _ _); [discriminate | reflexivity].
    - apply get_none in H2. now rewrite H2. }
  destruct (filter _ _) as [|m ms]; cbn [length concat].
  - split; [lia | exact X].
  - rewrite app_nil_r. split; [lia | exact X].
Qed.
Example C94_asks_example : asked (start dg val 10 (rep0 1 [b1; b2; b3] 3 0 [p2]) 100) = [[b1; b3]].
Proof. vm_compute. reflexivity. Qed.

(** A replica that is asked answers with what it holds under the ids it is asked for: no more, no less. *)
Theorem C94_answers : forall s ids, NoDup (map fst (old s)) -> forall p, In p (answer s ids) <-> exists b, In b ids /\ holds s b p.
Proof.
  intros s ids N p. unfold answer. rewrite in_flat_map. split; intros (b & H & H2); exists b; (split; [exact H|]).
  - unfold held in H2. destruct (get _ _) as [q|] eqn:E; [|destruct H2]. destruct H2 as [<-|[]]. now apply get_in.
  - unfold held. rewrite (unique_get _ p _ N H2). now left.
Qed.

(** The messages that wait for the view: none is lost or taken twice, their order is kept, and none is taken before the replica
    held all that the NewView names or got as far as its last batch. *)
Theorem C94_waiting : forall digest_of valid dev s0 now os, fresh s0 ->
  let s := run digest_of valid dev (start digest_of valid dev s0 now) os in
  taken s ++ kept s = kept s0 ++ flat_map (fun o => match o with Keep m => [m] | _ => [] end) os /\
  (taken s <> [] -> (forall b, In b (names s0) -> exists p, holds s0 b p) \/ cert s0 <= lseq s0 \/ exists k p, In (k, p) (pps s) /\ cert s0 <= k).
Proof.
  intros digest_of valid dev s0 now os (_ & _ & _ & _ & _ & _ & A & T & _). cbv zeta.
  destruct (run_keeps digest_of valid dev os (start digest_of valid dev s0 now)) as [E _].
  destruct (start_keeps digest_of valid dev s0 now) as (E2 & _ & E3).
  split; [rewrite E, E2, T; reflexivity|]. intros H.
  destruct (run_taken digest_of valid dev s0 os _ (inv2_start digest_of valid dev s0 now)) as (I & L & C).
  destruct (list_eq_dec Nat.eq_dec (taken (start digest_of valid dev s0 now)) []) as [E0|E0].
  - right. rewrite E0 in C. specialize (C H). destruct (j_high _ _ I) as [J|[p J]]; [left; lia | right; eauto].
  - left. rewrite T in E3. specialize (E3 E0). intros b Hb. destruct (get (b_pview b, b_seq b, b_digest b) (old s0)) as [p|] eqn:G.
    + exists p. now apply get_in.
    + exfalso. assert (X : In b (filter (is_missing s0) (names s0))) by (apply filter_In; split; [exact Hb|]; unfold is_missing, held; now rewrite G).
      rewrite E3 in X. destruct X.
Qed.

(** All is held: then all of it is applied at once, nobody is suspected, and the messages that wait are taken. *)
Theorem C94_complete_partial : forall digest_of valid dev s0 now c L L', fresh s0 -> NoDup (map fst (old s0)) ->
  Forall2 (holds s0) (names s0) L -> Forall2 (in_view (view s0)) L L' ->
  map b_seq (names s0) = seq (S c) (length (names s0)) -> cert s0 = c + length (names s0) -> c <= ordered s0 ->
  good_chain digest_of valid dev now (ordered s0) (lat s0) [] L' ->
  let s := start digest_of valid dev s0 now in
  applied s = filter (fun p => ordered s0 <? p_seq p) L' /\ (forall p, In p L' -> In (p_seq p, p) (pps s)) /\
  blamed s = [] /\ asked s = [] /\ kept s = [] /\ taken s = kept s0.
Proof.
  intros digest_of valid dev s0 now c L L' (F1 & F2 & F3 & F4 & F5 & F6 & F7 & F8 & K) N H V M C O G.
  assert (VL : L' = map (to_view (view s0)) L).
  { clear -V. induction V as [|p q L L' (A1 & A2 & A3 & A4 & A5 & A6 & A7) V IH]; [reflexivity|]. cbn [map]. f_equal; [|exact IH].
    destruct q. unfold to_view. cbn in *. congruence. }
  assert (HL : Forall2 (fun b p => get (b_pview b, b_seq b, b_digest b) (old s0) = Some p) (names s0) L).
  { clear -H N. induction H as [|b p l L H F IH]; constructor; [now apply unique_get | exact IH]. }
  assert (LE : length L = length (names s0)) by (symmetry; clear -HL; induction HL; cbn; congruence).
  assert (ML : map p_seq L = seq (S c) (length L)).
  { rewrite LE, <- M. clear -H K. induction H as [|b p l L H F IH]; [reflexivity|]. cbn [map]. rewrite IH. f_equal.
    apply K in H. inversion H. congruence. }
  assert (R : ready (S c) s0).
  { constructor.
    - unfold last_pp. rewrite F1. cbn. lia.
    - rewrite F1. intros j p [].
    - rewrite F2. intros j r t []. }
  assert (T : fold_left (try_name digest_of valid dev now) (names s0) s0 = fold_left (process_old digest_of valid dev now) L s0).
  { apply tries_held. intros s' E. unfold held. rewrite E. exact HL. }
  assert (MS : filter (is_missing s0) (names s0) = []).
  { clear -HL. induction HL as [|b p l L H F IH]; [reflexivity|]. cbn [filter]. unfold is_missing at 1, held. now rewrite H. }
  rewrite VL in G. rewrite <- F5 in G.
  destruct (chain_good digest_of valid dev now (view s0) L (S c) s0 eq_refl ltac:(lia) ML ltac:(lia) R G) as (SM & _ & _ & _ & _ & A & I & _).
  cbv zeta. unfold start. rewrite T, MS. set (s1 := fold_left _ L s0) in *. unfold reapplied. cbn [applied pps blamed asked kept taken].
  rewrite A, F5, VL, (sm_blamed _ _ SM), (sm_asked _ _ SM), (sm_taken _ _ SM), (sm_kept _ _ SM), F6, F7, F8.
  repeat split. intros p Hp. apply in_map_iff in Hp as (q & <- & Hq). exact (I q Hq).
Qed.
Example C94_complete_example :
  let s := start dg val 10 (rep0 1 [b1; b2; b3] 3 1 [p1; p2; p3]) 105 in
  good_chain dg val 10 105 1 0 [] [PP 1 0 1 100 11 11 5; PP 1 0 2 101 12 12 5; PP 1 0 3 102 13 13 5] /\
  (map p_seq (applied s), map fst (pps s), kept s, taken s) = ([2; 3], [1; 2; 3], [], [7]).
Proof. split; [vm_compute; repeat split; lia | vm_compute; reflexivity]. Qed.

(** All but the last ones are held, and an answer brings these in their order: then all is applied, and the messages that wait are taken. *)
Theorem C94_fetched_partial : forall digest_of valid dev s0 now now2 sender c N1 N2 L1 L1' L2 L2', fresh s0 -> NoDup (map fst (old s0)) ->
  names s0 = N1 ++ N2 -> N2 <> [] -> Forall2 (holds s0) N1 L1 -> (forall b, In b N2 -> ~ exists p, holds s0 b p) ->
  Forall2 (fun b p => named b p /\ p_view p = b_view b) N2 L2 ->
  Forall2 (in_view (view s0)) L1 L1' -> Forall2 (in_view (view s0)) L2 L2' ->
  map b_seq (names s0) = seq (S c) (length (names s0)) -> cert s0 = c + length (names s0) -> c <= ordered s0 ->
  good_chain digest_of valid dev now (ordered s0) (lat s0) [] L1' ->
  good_chain digest_of valid dev now2 (ordered s0) (last (map p_time L1') (lat s0)) (filter (fun p => ordered s0 <? p_seq p) L1') L2' ->
  let s := run digest_of valid dev (start digest_of valid dev s0 now) [Reply sender now2 L2] in
  applied s = filter (fun p => ordered s0 <? p_seq p) (L1' ++ L2') /\ (forall p, In p (L1' ++ L2') -> In (p_seq p, p) (pps s)) /\
  blamed s = [] /\ asked s = [N2] /\ kept s = [] /\ taken s = kept s0.
Proof.
  intros digest_of valid dev s0 now now2 sender c N1 N2 L1 L1' L2 L2' (F1 & F2 & F3 & F4 & F5 & F6 & F7 & F8 & K) N NE NN H HM H2 V V2 M C O G G2.
  assert (VV : forall L L', Forall2 (in_view (view s0)) L L' -> L' = map (to_view (view s0)) L).
  { intros L L' W. induction W as [|p q L L' (A1 & A2 & A3 & A4 & A5 & A6 & A7) W IH]; [reflexivity|]. cbn [map]. f_equal; [|exact IH].
    destruct q. unfold to_view. cbn in *. congruence. }
  apply VV in V. apply VV in V2. subst L1' L2'.
  assert (HL : Forall2 (fun b p => get (b_pview b, b_seq b, b_digest b) (old s0) = Some p) N1 L1).
  { clear -H N. induction H as [|b p l L H F IH]; constructor; [now apply unique_get | exact IH]. }
  assert (LE : length L1 = length N1) by (symmetry; clear -HL; induction HL; cbn; congruence).
  assert (LE2 : length L2 = length N2) by (symmetry; clear -H2; induction H2; cbn; congruence).
  rewrite NE, map_app, app_length, seq_app in M. rewrite NE, app_length in C.
  assert (M1 : map b_seq N1 = seq (S c) (length N1) /\ map b_seq N2 = seq (S c + length N1) (length N2)).
  { assert (X : forall (a b x y : list nat), length a = length b -> a ++ x = b ++ y -> a = b /\ x = y).
    { clear. induction a as [|h a IH]; intros [|h' b] x y E E2; try discriminate; [auto|]. injection E2 as -> E2. injection E as E.
      destruct (IH b x y E E2). subst. auto. }
    apply X in M; [exact M | now rewrite map_length, seq_length]. }
  destruct M1 as [M1 M2].
  assert (ML : map p_seq L1 = seq (S c) (length L1)).
  { rewrite LE, <- M1. clear -H K. induction H as [|b p l L H F IH]; [reflexivity|]. cbn [map]. rewrite IH. f_equal.
    apply K in H. inversion H. congruence. }
  assert (ML2 : map p_seq L2 = seq (S c + length L1) (length L2)).
  { rewrite LE, LE2, <- M2. clear -H2. induction H2 as [|b p l L [(_ & E & _) _] F IH]; [reflexivity|]. cbn [map]. now rewrite IH, E. }
  assert (R : ready (S c) s0).
  { constructor.
    - unfold last_pp. rewrite F1. cbn. lia.
    - rewrite F1. intros j p [].
    - rewrite F2. intros j r t []. }
  assert (HM2 : forall b, In b N2 -> get (b_pview b, b_seq b, b_digest b) (old s0) = None) by (intros b Hb; apply get_none, HM, Hb).
  rewrite <- F5 in G.
  destruct (chain_good digest_of valid dev now (view s0) L1 (S c) s0 eq_refl ltac:(lia) ML ltac:(lia) R G) as (SM & R1 & T1 & _ & _ & A & I & _).
  assert (T : fold_left (try_name digest_of valid dev now) (names s0) s0 = fold_left (process_old digest_of valid dev now) L1 s0).
  { rewrite NE, fold_left_app, (tries_held digest_of valid dev now N1 s0 L1).
    - apply tries_missing. intros b Hb. unfold held. rewrite (sm_old _ _ SM). now apply HM2.
    - intros s' E. unfold held. rewrite E. exact HL. }
  assert (MS : filter (is_missing s0) (names s0) = N2).
  { rewrite NE, filter_app.
    assert (X1 : filter (is_missing s0) N1 = []).
    { clear -HL. induction HL as [|b p l L H F IH]; [reflexivity|]. cbn [filter]. unfold is_missing at 1, held. now rewrite H. }
    assert (X2 : filter (is_missing s0) N2 = N2).
    { clear -HM2. induction N2 as [|b l IH]; [reflexivity|]. cbn [filter]. unfold is_missing at 1, held. rewrite HM2 by now left.
      f_equal. apply IH. intros c Hc. apply HM2. now right. }
    now rewrite X1, X2. }
  set (s1 := fold_left _ L1 s0) in *.
  set (s2 := start digest_of valid dev s0 now).
  assert (E2 : s2 = Rep (view s1) (names s1) (cert s1) (ordered s1) (lseq s1) (lat s1) (old s1) (pps s1) (tss s1) (prev s1) (bad_time s1)
              (applied s1) (blamed s1) (asked s1 ++ [N2]) (kept s1) (taken s1)).
  { unfold s2, start. rewrite T, MS. destruct N2; [congruence | reflexivity]. }
  assert (R2 : ready (S c + length L1) s2) by (rewrite E2; destruct R1; constructor; assumption).
  assert (S2 : view s2 = view s0 /\ names s2 = names s0 /\ cert s2 = cert s0 /\ ordered s2 = ordered s0 /\ lat s2 = last (map p_time L1) (lat s0) /\
    applied s2 = filter (fun p => ordered s0 <? p_seq p) (map (to_view (view s0)) L1) /\ blamed s2 = [] /\ asked s2 = [N2] /\ kept s2 = kept s0 /\ taken s2 = [] /\ pps s2 = pps s1).
  { rewrite E2. cbn [view names cert ordered lat applied blamed asked kept taken pps].
    rewrite (sm_view _ _ SM), (sm_names _ _ SM), (sm_cert _ _ SM), (sm_ord _ _ SM), T1, A, F5, (sm_blamed _ _ SM), F6, (sm_asked _ _ SM), F7,
      (sm_kept _ _ SM), (sm_taken _ _ SM), F8. repeat split. }
  destruct S2 as (V2 & N2' & C2 & O2 & LT2 & A2 & B2 & AS2 & K2 & TK2 & P2).
  assert (G3 : good_chain digest_of valid dev now2 (ordered s2) (lat s2) (applied s2) (map (to_view (view s0)) L2)).
  { rewrite O2, LT2, A2. rewrite map_map in G2. exact G2. }
  destruct (chain_good digest_of valid dev now2 (view s0) L2 (S c + length L1) s2 V2 ltac:(lia) ML2 ltac:(lia) R2 G3)
    as (SM3 & R3 & T3 & Q3 & _ & A3 & I3 & K3).
  cbn [run fold_left step]. fold s2. unfold run. cbn [fold_left step]. unfold reply. cbv zeta.
  assert (TT : fold_left (take digest_of valid dev now2) L2 s2 = fold_left (process_old digest_of valid dev now2) L2 s2).
  { apply takes_named with (N := names s2); [|reflexivity]. intros s' E. rewrite E, N2', NE. apply Forall_forall. intros p Hp.
    apply existsb_exists. exists (id_of p). split; [|now apply bid_eqb_eq]. apply in_or_app. right.
    clear -H2 Hp. induction H2 as [|b q l L [(E1 & E2 & E3) E4] F IH]; [destruct Hp|]. destruct Hp as [->|Hp]; [left | right; now apply IH].
    destruct b. unfold id_of. cbn in *. congruence. }
  rewrite TT. set (s3 := fold_left _ L2 s2) in *. rewrite (sm_cert _ _ SM3), C2.
  assert (LN : L2 <> []) by (destruct N2; [congruence|]; destruct L2; discriminate).
  assert (LG : 0 < length N2) by (destruct N2; [congruence | cbn; lia]). specialize (Q3 LN).
  assert (X : (0 <? cert s0) && (cert s0 <=? lseq s3) = true) by (apply andb_true_iff; split; [apply Nat.ltb_lt | apply Nat.leb_le]; lia).
  rewrite X. unfold reapplied. cbn [applied pps blamed asked kept taken].
  rewrite A3, A2, O2, (sm_blamed _ _ SM3), (sm_asked _ _ SM3), (sm_kept _ _ SM3), (sm_taken _ _ SM3), B2, AS2, K2, TK2, filter_app.
  repeat split. intros p Hp. apply in_app_iff in Hp as [Hp|Hp]; apply in_map_iff in Hp as (q & <- & Hq).
  - apply K3. rewrite P2. exact (I q Hq).
  - exact (I3 q Hq).
Qed.
Example C94_fetched_example :
  let s := run dg val 10 (start dg val 10 (rep0 1 [b1; b2; b3] 3 1 [p1; p2]) 105) [Reply 4 107 [p3]] in
  good_chain dg val 10 107 1 101 [PP 1 0 2 101 12 12 5] [PP 1 0 3 102 13 13 5] /\
  (map p_seq (applied s), map fst (pps s), asked s, kept s, taken s) = ([2; 3], [1; 2; 3], [[b3]], [], [7]).
Proof. split; [vm_compute; repeat split; lia | vm_compute; reflexivity]. Qed.

(** Refuted: "once all batches of the NewView are applied the messages that wait are taken".  If an earlier batch is missing and a later one
    is held, the later one is applied when the queue is looked at, and nothing takes the messages after that. *)
Theorem C94_left_refuted : exists s0, fresh s0 /\
  let s := run dg val 10 (start dg val 10 s0 105) [Reply 2 105 [p1]; Reply 3 105 [p1]; Reply 4 105 [p1]; Service 105] in
  (forall b, In b (names s0) -> exists p, named b p /\ In (p_seq p, p) (pps s)) /\
  forall os, (forall o, In o os -> exists now, o = Service now \/ o = Order) -> In 7 (kept (run dg val 10 s os)).
Proof.
  exists (rep0 1 [b1; b2] 2 0 [p2]). split; [apply fresh_rep0|]. cbv zeta. split.
  - intros b [<-|[<-|[]]]; [exists (PP 1 0 1 100 11 11 5) | exists (PP 1 0 2 101 12 12 5)]; (split; [repeat split | vm_compute; tauto]).
  - set (s := run _ _ _ _ _). assert (K : In 7 (kept s)) by (vm_compute; tauto). clearbody s.
    intros os. revert s K. induction os as [|o os IH]; intros s K H; [exact K|].
    change (run dg val 10 s (o :: os)) with (run dg val 10 (step dg val 10 s o) os). apply IH; [|intros o' Ho; apply H; now right].
    destruct (H o (or_introl eq_refl)) as [now [->| ->]]; cbn [step].
    + unfold service. destruct (kept_service dg val 10 s now (length (prev s))) as (-> & _). exact K.
    + destruct (_ <? _); exact K.
Qed.

(** Refuted: "a correct node's answer to what was asked is taken".  The batch was created in view 0 and prepared again in view 1; one who
    holds it as it was in view 0 answers, and the answer is thrown away. *)
Theorem C94_view_refuted : exists s0 h b p, fresh s0 /\ fresh h /\ holds h b p /\ named b p /\
  dg (p_orig p) (p_time p) (p_reqs p) = p_digest p /\
  let s := start dg val 10 s0 105 in asked s = [[b]] /\ answer h [b] = [p] /\
  forall sender now, run dg val 10 s [Reply sender now (answer h [b])] = s.
Proof.
  exists (rep0 2 [Bid 1 0 1 11] 1 0 []), (rep0 2 [Bid 1 0 1 11] 1 0 [p1]), (Bid 1 0 1 11), p1.
  split; [apply fresh_rep0|]. split; [apply fresh_rep0|]. split; [now left|]. split; [repeat split|]. split; [reflexivity|].
  split; [reflexivity|]. split; [reflexivity|]. intros sender now. reflexivity.
Qed.

(** Refuted: "only what the primary did makes a replica suspect it".  Anyone can answer with a batch that has the right id and a wrong outcome. *)
Theorem C94_blamed_refuted : exists s0 p, fresh s0 /\ In (id_of p) (names s0) /\ blamed (start dg val 10 s0 105) = [] /\
  forall sender, blamed (run dg val 10 (start dg val 10 s0 105) [Reply sender 105 [p]]) <> [].
Proof.
  exists (rep0 1 [b1] 1 0 []), (PP 0 0 1 100 11 11 6). split; [apply fresh_rep0|]. split; [now left|]. split; [reflexivity|].
  intros sender. vm_compute. discriminate.
Qed.

(** Refuted: "what was accepted is not replaced".  For a batch that was ordered earlier nothing is checked but the id that the answer claims: anyone can
    replace it by another one, of other requests. *)
Theorem C94_forged_refuted : exists s0 p q, fresh s0 /\ holds s0 b1 p /\ In (p_seq p, to_view 1 p) (pps (start dg val 10 s0 105)) /\
  p_reqs q <> p_reqs p /\ dg (p_orig q) (p_time q) (p_reqs q) <> p_digest q /\
  forall sender, let s := run dg val 10 (start dg val 10 s0 105) [Reply sender 105 [q]] in
    In (p_seq p, to_view 1 q) (pps s) /\ ~ In (p_seq p, to_view 1 p) (pps s).
Proof.
  exists (rep0 1 [b1] 1 1 [p1]), p1, (PP 0 0 1 100 99 11 6). split; [apply fresh_rep0|]. split; [now left|]. split; [now left|].
  split; [discriminate|]. split; [discriminate|]. intros sender. cbv zeta. split; [now left|]. vm_compute. intros [H|[]]. discriminate H.
Qed.

(** Refuted: "a prepared batch is applied again however long the change of views takes".  A replica that has not ordered a batch does not apply it
    again once it is older than the limit; it suspects the new primary, whoever that is. *)
Theorem C94_stale_refuted : forall digest_of valid dev s0 now b p, fresh s0 -> NoDup (map fst (old s0)) -> names s0 = [b] ->
  holds s0 b p -> cert s0 = b_seq b -> ordered s0 < b_seq b -> digest_of (p_orig p) (p_time p) (p_reqs p) = p_digest p ->
  p_time p + dev < now ->
  let s := start digest_of valid dev s0 now in pps s = [] /\ applied s = [] /\ blamed s = [to_view (view s0) p].
Proof.
  intros digest_of valid dev s0 now b p (F1 & F2 & F3 & F4 & F5 & F6 & F7 & F8 & K) N NM H C O D T. cbv zeta.
  unfold start. rewrite NM. cbn [fold_left filter]. unfold try_name, is_missing, held. rewrite (unique_get _ p _ N H).
  pose proof (K _ _ H) as E. assert (E2 : b_seq b = p_seq p) by congruence.
  unfold process_old, process, stamp. rewrite F1, F2, F5, F6. cbn [existsb to_view p_seq p_orig p_time p_reqs p_digest p_rest ordered cert pps].
  destruct (p_seq p =? 0) eqn:B0; [apply Nat.eqb_eq in B0; lia|].
  destruct (p_seq p <=? ordered s0) eqn:B1; [apply Nat.leb_le in B1; lia|]. cbn [andb].
  destruct (S (cert s0) <? p_seq p) eqn:B2; [apply Nat.ltb_lt in B2; lia|]. cbn [andb].
  rewrite D, Nat.eqb_refl. cbn [negb has existsb].
  match goal with |- context [time_ok dev ?x ?y] => assert (TK : time_ok dev x y = false) end.
  { unfold time_ok. cbn [lat tss]. destruct (_ && _); [reflexivity|]. unfold seen_at. cbn [find fst snd p_seq p_rest]. rewrite !Nat.eqb_refl.
    cbn [andb option_map snd p_time]. apply Nat.leb_gt. cbn [to_view p_time]. lia. }
  rewrite TK. cbn [negb]. unfold reapplied, blame. cbn [pps applied blamed]. auto.
Qed.
Example C94_stale_example : let s := start dg val 10 (rep0 1 [b1] 1 0 [p1]) 111 in (pps s, map p_seq (blamed s)) = ([], [1]).
Proof. vm_compute. reflexivity. Qed.

(** Refuted: "all that is held and named is applied again".  The batches of a NewView are sorted by the view in which they were prepared; if an earlier
    batch was prepared in a later view (C66) the last of the list is not the highest, and a batch beyond is thrown away. *)
Theorem C94_unsorted_refuted : exists s0, fresh s0 /\ cert s0 = b_seq (last (names s0) b1) /\
  (forall b, In b (names s0) -> exists p, holds s0 b p) /\
  let s := run dg val 10 (start dg val 10 s0 105) [Service 105] in
  map p_seq (applied s) = [1; 2] /\ In b3 (names s0) /\ prev s = [] /\ ~ exists p, In (3, p) (pps s).
Proof.
  exists (rep0 2 [b2; b3; Bid 1 0 1 11] 1 0 [PP 1 0 1 100 11 11 5; p2; p3]). split; [apply fresh_rep0|]. split; [reflexivity|].
  split. { intros b [<-|[<-|[<-|[]]]]; [exists p2 | exists p3 | exists (PP 1 0 1 100 11 11 5)]; vm_compute; tauto. }
  split; [reflexivity|]. split; [vm_compute; tauto|]. split; [reflexivity|]. vm_compute. intros [p [H|[H|[]]]]; discriminate H.
Qed.

Print Assumptions C94_named.
Print Assumptions C94_complete_partial.
Print Assumptions C94_fetched_partial.
Print Assumptions C94_stale_refuted.
