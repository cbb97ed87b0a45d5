(** Proofs about metrics (C89). *)
From Coq Require Import List Arith NArith ZArith Bool Lia Permutation.
From Verif Require Import Dict Metrics_Model Metrics_Spec.
Import ListNotations.

(** *** accumulators are a commutative monoid *)
Lemma min_none_assoc a b c : min_none (min_none a b) c = min_none a (min_none b c).
Proof. destruct a, b, c; simpl; try reflexivity. f_equal. lia. Qed.
Lemma max_none_assoc a b c : max_none (max_none a b) c = max_none a (max_none b c).
Proof. destruct a, b, c; simpl; try reflexivity. f_equal. lia. Qed.
Lemma min_none_comm a b : min_none a b = min_none b a.
Proof. destruct a, b; simpl; try reflexivity. f_equal. lia. Qed.
Lemma max_none_comm a b : max_none a b = max_none b a.
Proof. destruct a, b; simpl; try reflexivity. f_equal. lia. Qed.
Lemma merge_assoc a b c : acc_merge (acc_merge a b) c = acc_merge a (acc_merge b c).
Proof. unfold acc_merge. cbn [count sum sumsq amin amax]. rewrite min_none_assoc, max_none_assoc. f_equal; lia. Qed.
Lemma merge_comm a b : acc_merge a b = acc_merge b a.
Proof. unfold acc_merge. rewrite (min_none_comm (amin a)), (max_none_comm (amax a)). f_equal; lia. Qed.
Lemma merge_unit_l a : acc_merge empty_acc a = a.
Proof. destruct a as [c s q x y]. unfold acc_merge. cbn. reflexivity. Qed.
Lemma merge_unit_r a : acc_merge a empty_acc = a.
Proof. rewrite merge_comm. apply merge_unit_l. Qed.
Lemma add_merge a v : acc_add a v = acc_merge a (acc_of v).
Proof. unfold acc_add, acc_merge, acc_of. cbn [count sum sumsq amin amax]. f_equal. lia. Qed.

Lemma fold_min r : forall v w, Z.min (fold_left Z.min r v) w = fold_left Z.min r (Z.min v w).
Proof. induction r as [|x r IH]; intros v w; simpl; [reflexivity|]. rewrite IH. f_equal. lia. Qed.
Lemma fold_max r : forall v w, Z.max (fold_left Z.max r v) w = fold_left Z.max r (Z.max v w).
Proof. induction r as [|x r IH]; intros v w; simpl; [reflexivity|]. rewrite IH. f_equal. lia. Qed.
Lemma lowest_cons v vs : lowest (v :: vs) = min_none (Some v) (lowest vs).
Proof. destruct vs as [|w vs]; [reflexivity|]. simpl. f_equal. rewrite (Z.min_comm v w), <- fold_min. apply Z.min_comm. Qed.
Lemma highest_cons v vs : highest (v :: vs) = max_none (Some v) (highest vs).
Proof. destruct vs as [|w vs]; [reflexivity|]. simpl. f_equal. rewrite (Z.max_comm v w), <- fold_max. apply Z.max_comm. Qed.
Lemma summary_cons v vs : summary (v :: vs) = acc_merge (acc_of v) (summary vs).
Proof. unfold summary. rewrite lowest_cons, highest_cons. unfold acc_merge, acc_of. cbn [count sum sumsq amin amax length fold_right]. reflexivity. Qed.
Lemma summary_app a b : summary (a ++ b) = acc_merge (summary a) (summary b).
Proof. induction a as [|v a IH]; [symmetry; apply merge_unit_l|]. rewrite <- app_comm_cons, !summary_cons, IH, merge_assoc. reflexivity. Qed.
Lemma summary_perm a b : Permutation a b -> summary a = summary b.
Proof.
  induction 1 as [|v a b _ IH|v w a|a b c _ IH1 _ IH2]; [reflexivity|rewrite !summary_cons, IH; reflexivity| |congruence].
  rewrite !summary_cons, <- !merge_assoc, (merge_comm (acc_of v)). reflexivity.
Qed.
Lemma summary_snoc vs v : summary (vs ++ [v]) = acc_add (summary vs) v.
Proof. rewrite summary_app, add_merge. f_equal. rewrite summary_cons. apply merge_unit_r. Qed.
Lemma built vs : fold_left acc_add vs empty_acc = summary vs.
Proof. induction vs as [|v vs IH] using rev_ind; [reflexivity|]. rewrite fold_left_app, summary_snoc, <- IH. reflexivity. Qed.

(** packing *)
Definition val_acc (v : value) : acc := match v with Float x => acc_of x | Accum a => a end.
Definition pk (vs : list Z) : packed := match to_bytes (summary vs) with Some p => p | None => One 0 end.
Lemma pack_summary vs : vs <> [] -> to_bytes (summary vs) = Some (pk vs) /\ val_acc (decode_value (pk vs)) = summary vs.
Proof.
  intros N. unfold pk. destruct vs as [|v [|w vs]]; [congruence| |].
  - cbn. split; [reflexivity|]. unfold acc_of, summary. cbn. rewrite !Z.add_0_r. reflexivity.
  - unfold to_bytes. cbn [count summary length Nat.eqb]. cbn [amin amax lowest highest]. split; reflexivity.
Qed.

(** *** the store *)
Fixpoint inc (s : store) : Prop := match s with [] => True | e :: r => (forall e', In e' r -> (fst e < fst e')%N) /\ inc r end.
Lemma put_in k v s e : In e (put k v s) -> e = (k, v) \/ In e s.
Proof.
  induction s as [|(k0, v0) s IH]; simpl; [intros [<-|[]]; auto|]. destruct (k <? k0)%N; [intros [<-|I]; auto|].
  destruct (k =? k0)%N; [intros [<-|I]; auto|]. intros [<-|I]; [auto|]. destruct (IH I); auto.
Qed.
Lemma put_inc k v s : inc s -> inc (put k v s).
Proof.
  induction s as [|(k0, v0) s IH]; simpl; [intros _; split; [intros e []|exact I]|]. intros (A & B).
  destruct (N.ltb_spec k k0).
  - simpl. split; [|split; assumption]. intros e [<-|E]; [exact H|]. specialize (A e E). simpl in *. lia.
  - destruct (N.eqb_spec k k0) as [->|Ne]; [simpl; split; assumption|]. simpl. split; [|apply IH, B].
    intros e E. apply put_in in E as [->|E]; [simpl; lia|apply A, E].
Qed.
Lemma put_perm k v s : ~ In k (map fst s) -> Permutation (put k v s) ((k, v) :: s).
Proof.
  induction s as [|(k0, v0) s IH]; simpl; intros N; [apply Permutation_refl|]. destruct (k <? k0)%N; [apply Permutation_refl|].
  destruct (N.eqb_spec k k0) as [->|Ne]; [tauto|]. rewrite IH by tauto. apply perm_swap.
Qed.

(** *** what a history writes *)
Section Clock.
Variable clock : nat -> N.
Definition entry (i : nat) (w : written) : N * (nat * packed) := (encode_key (w_at w) (N.of_nat i mod seq_mod), (w_name w, pk (w_values w))).
Fixpoint put_all (s : store) (i : nat) (ws : list written) : store :=
  match ws with [] => s | w :: r => put_all (put (fst (entry i w)) (snd (entry i w)) s) (S i) r end.
Lemma put_all_app a : forall s i b, put_all s i (a ++ b) = put_all (put_all s i a) (i + length a) b.
Proof. induction a as [|w a IH]; intros s i b; simpl; [rewrite Nat.add_0_r; reflexivity|]. rewrite IH. f_equal. lia. Qed.
Lemma names_app a : forall b seen, names (a ++ b) seen = names b (names a seen).
Proof. induction a as [|[n v| |] a IH]; intros b seen; simpl; auto. Qed.
Lemma added_app n a b : added n (a ++ b) = added n a ++ added n b.
Proof. apply flat_map_app. Qed.
Lemma names_seen os : forall seen x, In x (names os seen) <-> In x seen \/ added x os <> [].
Proof.
  induction os as [|[m v| |] os IH]; intros seen x; simpl; [tauto| |apply IH|apply IH]. rewrite IH, add_in.
  destruct (Nat.eqb_spec m x) as [->|N]; simpl; [|intuition congruence]. split; intros; [right; discriminate|left; left; reflexivity].
Qed.
Lemma names_nodup os : forall seen, NoDup seen -> NoDup (names os seen).
Proof. induction os as [|[m v| |] os IH]; intros seen N; simpl; auto. apply IH, add_nodup, N. Qed.
Definition rep (since : list op) : dict acc := map (fun n => (n, summary (added n since))) (names since []).
Lemma get_map_key {V} (g : nat -> V) ns n : get n (map (fun n => (n, g n)) ns) = if existsb (Nat.eqb n) ns then Some (g n) else None.
Proof. induction ns as [|m ns IH]; simpl; [reflexivity|]. destruct (Nat.eqb_spec n m) as [->|N]; [reflexivity|exact IH]. Qed.
Lemma rep_get since n : get_or n empty_acc (rep since) = summary (added n since).
Proof.
  unfold get_or, rep. rewrite (get_map_key (fun n => summary (added n since))). destruct (existsb (Nat.eqb n) (names since [])) eqn:E; [reflexivity|].
  destruct (added n since) eqn:A; [reflexivity|]. exfalso.
  assert (I : In n (names since [])) by (apply names_seen; right; congruence). apply mem_in in I. congruence.
Qed.
Lemma set_map_key {V} (g h : nat -> V) ns n : NoDup ns -> (forall m, m <> n -> g m = h m) ->
  set n (h n) (map (fun m => (m, g m)) ns) = map (fun m => (m, h m)) (add n ns).
Proof.
  intros ND H. unfold add. induction ns as [|m ns IH]; simpl; [reflexivity|]. inversion ND as [|? ? N1 N2]; subst.
  destruct (Nat.eqb_spec n m) as [->|N]; cbn [orb].
  - simpl. f_equal. apply map_ext_in. intros x X. f_equal. apply H. intros ->. contradiction.
  - rewrite (IH N2). destruct (existsb (Nat.eqb n) ns); simpl; rewrite H by congruence; reflexivity.
Qed.
Lemma rep_add since n v : set n (acc_add (get_or n empty_acc (rep since)) v) (rep since) = rep (since ++ [Add n v]).
Proof.
  rewrite rep_get. unfold rep at 2. rewrite names_app. cbn [names].
  assert (E : acc_add (summary (added n since)) v = summary (added n (since ++ [Add n v]))).
  { rewrite added_app. cbn [added flat_map]. rewrite Nat.eqb_refl, app_nil_r. symmetry. apply summary_snoc. }
  rewrite E. unfold rep. apply (set_map_key (fun n => summary (added n since)) (fun m => summary (added m (since ++ [Add n v])))).
  - apply names_nodup, NoDup_nil.
  - intros m N. rewrite added_app. cbn [added flat_map]. destruct (Nat.eqb_spec n m); [congruence|]. rewrite app_nil_r. reflexivity.
Qed.

Definition same_seq (c : collector) : Prop := seq_no c = (N.of_nat (reads c) mod seq_mod)%N.
Lemma seq_next i : ((N.of_nat i mod seq_mod + 1) mod seq_mod = N.of_nat (S i) mod seq_mod)%N.
Proof. rewrite N.add_mod_idemp_l by discriminate. f_equal. lia. Qed.
Lemma store_all_ok since ns : forall c, same_seq c -> closed c = false -> (forall n, In n ns -> added n since <> []) ->
  exists c', store_all clock c (map (fun n => (n, summary (added n since))) ns) = Some c' /\ same_seq c' /\ closed c' = false /\
    reads c' = reads c + length ns /\
    kv c' = put_all (kv c) (reads c) (at_flush clock (reads c) ns since).
Proof.
  induction ns as [|n ns IH]; intros c SS CL H; [exists c; simpl; repeat split; auto|]. cbn [map store_all]. unfold store_event. rewrite CL.
  destruct (pack_summary (added n since) (H n (or_introl eq_refl))) as (P & _). cbn [encode_value]. rewrite P.
  set (c1 := Collector _ _ _ _ _).
  destruct (IH c1) as (c' & E & A & B & C & D); [|reflexivity|intros m I; apply H; right; exact I|].
  { unfold same_seq, c1. cbn [seq_no reads]. rewrite SS. apply seq_next. }
  exists c'. split; [exact E|]. split; [exact A|]. split; [exact B|]. split; [rewrite C; unfold c1; cbn [reads length]; lia|].
  rewrite D. unfold c1. cbn [kv reads at_flush put_all]. unfold entry at 1 2. cbn [fst snd w_at w_name w_values]. rewrite SS. reflexivity.
Qed.
Lemma run_ok os : forall c since, same_seq c -> closed c = false -> accs c = rep since -> ~ In Close os ->
  exists c', run clock c os = Some c' /\ kv c' = put_all (kv c) (reads c) (writes clock (reads c) since os) /\ closed c' = false.
Proof.
  induction os as [|o os IH]; intros c since SS CL R NC; [exists c; repeat split; auto|]. destruct o as [n v| |]; cbn [run step writes].
  - apply (IH (add_event c n v) (since ++ [Add n v])); auto; [|intros I; apply NC; right; exact I]. cbn [add_event accs]. rewrite R. apply rep_add.
  - unfold flush. rewrite R. unfold rep.
    destruct (store_all_ok since (names since []) c SS CL) as (c1 & E & A & B & C & D).
    { intros n I. apply names_seen in I as [[]|I]. exact I. }
    rewrite E. destruct (IH (Collector (kv c1) (closed c1) (seq_no c1) [] (reads c1)) []) as (c' & E' & K' & CL'); auto.
    { intros I. apply NC. right. exact I. }
    exists c'. split; [exact E'|]. split; [|exact CL']. rewrite K'. cbn [kv reads]. rewrite put_all_app, D, C. f_equal.
    clear. revert c since. assert (L : forall ns i since, length (at_flush clock i ns since) = length ns) by (induction ns as [|n ns IH]; intros i since; simpl; [reflexivity|rewrite IH; reflexivity]).
    intros c since. rewrite L. reflexivity.
  - exfalso. apply NC. left. reflexivity.
Qed.
(** the readings of the clock *)
Lemma at_flush_at ns : forall i since, map w_at (at_flush clock i ns since) = map clock (seq i (length ns)).
Proof. induction ns as [|n ns IH]; intros i since; simpl; [reflexivity|]. rewrite IH. reflexivity. Qed.
Lemma at_flush_length ns : forall i since, length (at_flush clock i ns since) = length ns.
Proof. induction ns as [|n ns IH]; intros i since; simpl; [reflexivity|]. rewrite IH. reflexivity. Qed.
Lemma writes_at os : forall i since, map w_at (writes clock i since os) = map clock (seq i (length (writes clock i since os))).
Proof.
  induction os as [|[n v| |] os IH]; intros i since; cbn [writes]; [reflexivity|apply IH| |apply IH].
  rewrite map_app, app_length, seq_app, map_app, at_flush_at, IH, at_flush_length. reflexivity.
Qed.
Lemma at_flush_values ns : forall i since w, (forall n, In n ns -> added n since <> []) -> In w (at_flush clock i ns since) -> w_values w <> [].
Proof.
  induction ns as [|n ns IH]; intros i since w H; simpl; [intros []|]. intros [<-|I]; [apply H; left; reflexivity|].
  apply (IH (S i) since w); [intros m M; apply H; right; exact M|exact I].
Qed.
Lemma writes_values os : forall i since w, In w (writes clock i since os) -> w_values w <> [].
Proof.
  induction os as [|[n v| |] os IH]; intros i since w; cbn [writes]; [intros []|apply IH| |apply IH].
  intros I. apply in_app_iff in I as [I|I]; [|apply (IH _ _ _ I)]. apply (at_flush_values _ _ _ _) in I; [exact I|].
  intros m M. apply names_seen in M as [[]|M]. exact M.
Qed.

(** distinct keys *)
Lemma key_eq t s : (t < ts_mod)%N -> encode_key t (s mod seq_mod) = (t * seq_mod + s mod seq_mod)%N.
Proof. intros H. unfold encode_key. rewrite N.mod_small by exact H. rewrite N.mod_mod by discriminate. reflexivity. Qed.
Lemma key_ts t s : (t < ts_mod)%N -> decode_ts (encode_key t (s mod seq_mod)) = t.
Proof.
  intros H. rewrite key_eq by exact H. unfold decode_ts. rewrite N.add_comm, N.div_add by discriminate.
  rewrite N.div_small; [reflexivity|]. apply N.mod_lt. discriminate.
Qed.
Fixpoint entries (i : nat) (ws : list written) : store := match ws with [] => [] | w :: r => entry i w :: entries (S i) r end.
Lemma entries_in i ws e : In e (entries i ws) -> exists j w, nth_error ws j = Some w /\ e = entry (i + j) w.
Proof.
  revert i. induction ws as [|w ws IH]; intros i; simpl; [intros []|]. intros [<-|I]; [exists 0, w; rewrite Nat.add_0_r; auto|].
  destruct (IH (S i) I) as (j & w' & E & ->). exists (S j), w'. split; [exact E|]. f_equal. lia.
Qed.
Definition timed (i : nat) (ws : list written) : Prop := forall j w, nth_error ws j = Some w -> w_at w = clock (i + j).
Lemma writes_timed os i since : timed i (writes clock i since os).
Proof.
  intros j w E. pose proof (writes_at os i since) as A. assert (L : j < length (writes clock i since os)) by (apply nth_error_Some; congruence).
  apply (f_equal (fun l => nth_error l j)) in A. rewrite (map_nth_error w_at j _ E) in A.
  rewrite (map_nth_error clock j _ (d := i + j)) in A; [congruence|].
  rewrite (nth_error_nth' _ 0) by (rewrite seq_length; exact L). rewrite seq_nth by exact L. reflexivity.
Qed.
Lemma key_inj k i j wi wj : good_clock clock k -> i < j -> j < k -> w_at wi = clock i -> w_at wj = clock j -> fst (entry i wi) <> fst (entry j wj).
Proof.
  intros (G1 & G2 & G3) L K Ei Ej E. unfold entry in E. cbn [fst] in E. rewrite Ei, Ej in E. rewrite !key_eq in E by (apply G3; lia).
  assert (P : (seq_mod <> 0)%N) by discriminate.
  assert (Q1 : clock i = clock j).
  { apply (f_equal (fun x => x / seq_mod)%N) in E. rewrite !(N.add_comm (_ * _)), !N.div_add in E by exact P.
    rewrite !N.div_small in E by (apply N.mod_lt; exact P). exact E. }
  rewrite Q1 in E. assert (Q2 : (N.of_nat i mod seq_mod = N.of_nat j mod seq_mod)%N) by lia.
  assert (M : exists q, (N.of_nat j = N.of_nat i + seq_mod * q)%N).
  { exists (N.of_nat j / seq_mod - N.of_nat i / seq_mod)%N. pose proof (N.div_mod (N.of_nat i) seq_mod P). pose proof (N.div_mod (N.of_nat j) seq_mod P).
    assert (D : (N.of_nat i / seq_mod <= N.of_nat j / seq_mod)%N) by (apply N.div_le_mono; lia). rewrite N.mul_sub_distr_l. rewrite Q2 in *. nia. }
  destruct M as (q & M). assert (q <> 0)%N by lia.
  assert (J : i + N.to_nat 2048%N <= j) by (unfold seq_mod in M; lia). specialize (G2 i j J K). lia.
Qed.
Lemma put_all_perm k ws : forall s i, good_clock clock k -> timed i ws -> i + length ws <= k -> inc s ->
  (forall e, In e s -> exists j w, j < i /\ w_at w = clock j /\ e = entry j w) ->
  Permutation (put_all s i ws) (s ++ entries i ws) /\ inc (put_all s i ws).
Proof.
  induction ws as [|w ws IH]; intros s i G T L I H; cbn [put_all entries]; [rewrite app_nil_r; split; [apply Permutation_refl|exact I]|]. cbn [length] in L.
  assert (TW : w_at w = clock i) by (rewrite (T 0 w eq_refl); f_equal; lia).
  assert (F : ~ In (fst (entry i w)) (map fst s)).
  { intros Q. apply in_map_iff in Q as (e & E & Q). apply H in Q as (j & w' & J & A & ->). revert E. apply (key_inj k j i w' w G J); auto. lia. }
  destruct (IH (put (fst (entry i w)) (snd (entry i w)) s) (S i)) as (A & B); [exact G| |lia|apply put_inc, I| |].
  - intros j w' E. rewrite (T (S j) w' E). f_equal. lia.
  - intros e E. apply put_in in E as [->|E]; [exists i, w; repeat split; auto|]. destruct (H e E) as (j & w' & J & Q & ->). exists j, w'. repeat split; auto.
  - split; [|exact B]. rewrite A, (put_perm _ _ _ F), <- surjective_pairing. cbn [app]. apply Permutation_middle.
Qed.
End Clock.

(** *** loading *)
Lemma frame_get_set f n a m : frame_get (set n a f) m = if m =? n then a else frame_get f m.
Proof. unfold frame_get, get_or. rewrite get_set. destruct (m =? n); reflexivity. Qed.
Lemma frame_add_get f n v m : frame_get (frame_add f n v) m = if m =? n then acc_merge (frame_get f m) (val_acc v) else frame_get f m.
Proof.
  unfold frame_add. rewrite frame_get_set. destruct (Nat.eqb_spec m n) as [->|N]; [|reflexivity].
  destruct v; cbn [val_acc]; [apply add_merge|reflexivity].
Qed.
Lemma frame_merge_get g : forall f m, NoDup (map fst g) -> frame_get (frame_merge f g) m = acc_merge (frame_get f m) (frame_get g m).
Proof.
  induction g as [|(k, a) g IH]; intros f m N; [cbn; symmetry; apply merge_unit_r|]. inversion N as [|? ? N1 N2]; subst.
  unfold frame_merge. cbn [fold_left fst snd]. fold (frame_merge (set k (acc_merge (frame_get f k) a) f) g). rewrite (IH _ m N2), frame_get_set.
  destruct (Nat.eqb_spec m k) as [->|Ne].
  - assert (Z1 : frame_get g k = empty_acc) by (unfold frame_get, get_or; rewrite (proj2 (get_none k g) N1); reflexivity).
    assert (Z2 : frame_get ((k, a) :: g) k = a) by (unfold frame_get, get_or; cbn [get]; rewrite Nat.eqb_refl; reflexivity).
    rewrite Z1, Z2, merge_unit_r. reflexivity.
  - f_equal. unfold frame_get, get_or. cbn [get]. destruct (Nat.eqb_spec m k); [congruence|reflexivity].
Qed.
Lemma frame_merge_nodup g : forall f, NoDup (map fst f) -> NoDup (map fst (frame_merge f g)).
Proof. induction g as [|e g IH]; intros f N; [exact N|]. apply (IH (set (fst e) (acc_merge (frame_get f (fst e)) (snd e)) f)), nodup_set, N. Qed.
Definition sum_frames (fs : list frame) (m : nat) : acc := fold_right (fun f a => acc_merge (frame_get f m) a) empty_acc fs.
Lemma sum_frames_app a b m : sum_frames (a ++ b) m = acc_merge (sum_frames a m) (sum_frames b m).
Proof. induction a as [|f a IH]; [symmetry; apply merge_unit_l|]. cbn [app sum_frames fold_right]. fold (sum_frames (a ++ b) m) (sum_frames a m). rewrite IH, merge_assoc. reflexivity. Qed.
Lemma merge_all_ok fuel : forall fs, length fs <= fuel -> (forall f, In f fs -> NoDup (map fst f)) ->
  NoDup (map fst (merge_all fuel fs)) /\ forall m, frame_get (merge_all fuel fs) m = sum_frames fs m.
Proof.
  induction fuel as [|fuel IH]; intros fs L N.
  - destruct fs; [|simpl in L; lia]. split; [apply NoDup_nil|reflexivity].
  - destruct fs as [|f [|g fs]].
    + split; [apply NoDup_nil|reflexivity].
    + split; [apply N; left; reflexivity|]. intros m. cbn. symmetry. apply merge_unit_r.
    + change (merge_all (S fuel) (f :: g :: fs)) with
        (frame_merge (merge_all fuel (firstn (length (f :: g :: fs) / 2) (f :: g :: fs))) (merge_all fuel (skipn (length (f :: g :: fs) / 2) (f :: g :: fs)))).
      remember (f :: g :: fs) as l eqn:E. assert (LL : 2 <= length l) by (rewrite E; simpl; lia).
      assert (D1 : 1 <= length l / 2) by (apply Nat.div_le_lower_bound; lia). assert (D2 : length l / 2 < length l) by (apply Nat.div_lt; lia).
      destruct (IH (firstn (length l / 2) l)) as (A1 & A2); [rewrite firstn_length; lia|intros x X; apply N; rewrite <- (firstn_skipn (length l / 2) l); apply in_app_iff; auto|].
      destruct (IH (skipn (length l / 2) l)) as (B1 & B2); [rewrite skipn_length; lia|intros x X; apply N; rewrite <- (firstn_skipn (length l / 2) l); apply in_app_iff; auto|].
      split; [apply frame_merge_nodup, A1|]. intros m. rewrite frame_merge_get by exact B1. rewrite A2, B2, <- sum_frames_app, firstn_skipn. reflexivity.
Qed.

Section Load.
Variable trunc : N -> N.
Variable is_name : nat -> bool.
Notation add_entry := (fun s e => stat_add trunc s (decode_ts (fst e)) (fst (snd e)) (decode_value (snd (snd e)))).
Lemma inc_ts (l : store) e : inc (e :: l) -> forall e', In e' l -> (decode_ts (fst e) <= decode_ts (fst e'))%N.
Proof. intros (A & _) e' I. specialize (A e' I). unfold decode_ts. apply N.div_le_mono; [discriminate|lia]. Qed.
Lemma load_from_ok mx l : forall s, inc l ->
  load_from trunc is_name mx l s = fold_left add_entry (filter (fun e => is_name (fst (snd e)) && within None mx (decode_ts (fst e))) l) s.
Proof.
  induction l as [|(k, (n, p)) l IH]; intros s I; [reflexivity|]. pose proof (inc_ts l (k, (n, p)) I) as T. destruct I as (_ & I2).
  cbn [load_from filter fst snd]. destruct (is_name n) eqn:NM; cbn [andb]; [|apply IH, I2]. destruct mx as [m|]; cbn [within andb] in *.
  - destruct (N.ltb_spec m (decode_ts k)) as [L|L].
    + rewrite (proj2 (N.leb_gt _ _) L). cbn [fst] in T. assert (E : filter (fun e => is_name (fst (snd e)) && (decode_ts (fst e) <=? m)%N) l = []).
      { clear - T L. induction l as [|e l IH]; [reflexivity|]. cbn [filter]. specialize (T e (or_introl eq_refl)) as T0. rewrite (proj2 (N.leb_gt _ _)) by lia.
        rewrite andb_false_r. apply IH. intros e' X. apply T. right. exact X. }
      rewrite E. reflexivity.
    + rewrite (proj2 (N.leb_le _ _) L). cbn [fold_left fst snd]. apply IH, I2.
  - cbn [fold_left fst snd]. apply IH, I2.
Qed.
Lemma start_ok m k : (m < ts_mod)%N -> (encode_key m 0 <=? k)%N = (m <=? decode_ts k)%N.
Proof.
  intros H. unfold encode_key, decode_ts. rewrite N.mod_small by exact H. change (0 mod seq_mod)%N with 0%N. rewrite N.add_0_r.
  apply eq_true_iff_eq. rewrite !N.leb_le. split; intros L; [apply N.div_le_lower_bound; [discriminate|lia]|].
  pose proof (N.mul_div_le k seq_mod ltac:(discriminate)). nia.
Qed.
Lemma filter_inc q l : inc l -> inc (filter q l).
Proof. induction l as [|e l IH]; simpl; [auto|]. intros (A & B). destruct (q e); [|auto]. simpl. split; [|auto]. intros e' X. apply filter_In in X as (X & _). auto. Qed.
Lemma filter_filter {A} (p q : A -> bool) l : filter p (filter q l) = filter (fun x => q x && p x) l.
Proof. induction l as [|x l IH]; simpl; [reflexivity|]. destruct (q x); simpl; rewrite IH; reflexivity. Qed.
Lemma load_ok st mn mx : inc st -> (forall m, mn = Some m -> (m < ts_mod)%N) ->
  load trunc is_name st mn mx = fold_left add_entry (filter (fun e => is_name (fst (snd e)) && within mn mx (decode_ts (fst e))) st) [].
Proof.
  intros I B. unfold load. destruct mn as [m|].
  - rewrite load_from_ok by (apply filter_inc, I). rewrite filter_filter. f_equal. apply filter_ext. intros e. rewrite start_ok by (apply B; reflexivity).
    unfold within. cbn [andb]. destruct (m <=? decode_ts (fst e))%N, (is_name (fst (snd e))); reflexivity.
  - apply load_from_ok, I.
Qed.

(** sums *)
Definition msum (m : nat) (l : store) : acc :=
  fold_right (fun e a => if m =? fst (snd e) then acc_merge (val_acc (decode_value (snd (snd e)))) a else a) empty_acc l.
Lemma msum_perm m l l' : Permutation l l' -> msum m l = msum m l'.
Proof.
  induction 1 as [|e l l' _ IH|e f l|l l' l'' _ IH1 _ IH2]; [reflexivity|cbn; fold (msum m l) (msum m l'); rewrite IH; reflexivity| |congruence].
  cbn [msum fold_right]. fold (msum m l). destruct (m =? fst (snd e)), (m =? fst (snd f)); auto.
  rewrite <- !merge_assoc. f_equal. apply merge_comm.
Qed.
Definition tot (s : stats) (m : nat) : acc := sum_frames (map snd s) m.
Lemma tot_set s t n v m : tot (stat_set t (frame_add (stat_get t s) n v) s) m =
  if m =? n then acc_merge (tot s m) (val_acc v) else tot s m.
Proof.
  unfold tot. induction s as [|(t', f) s IH]; cbn [stat_set stat_get].
  - cbn [map snd sum_frames fold_right]. rewrite frame_add_get, merge_unit_r. cbn [frame_get get_or get]. reflexivity.
  - destruct (t =? t')%N; cbn [map snd sum_frames fold_right]; fold (sum_frames (map snd s) m).
    + rewrite frame_add_get. destruct (m =? n); [|reflexivity]. rewrite !merge_assoc. f_equal. apply merge_comm.
    + fold (sum_frames (map snd (stat_set t (frame_add (stat_get t s) n v) s)) m). rewrite IH. destruct (m =? n); [|reflexivity]. rewrite merge_assoc. reflexivity.
Qed.
Lemma tot_fold m l : forall s, tot (fold_left add_entry l s) m = acc_merge (tot s m) (msum m l).
Proof.
  induction l as [|e l IH]; intros s; cbn [fold_left msum fold_right]; [symmetry; apply merge_unit_r|]. fold (msum m l). rewrite IH. unfold stat_add.
  rewrite tot_set.
  destruct (m =? fst (snd e)); [rewrite merge_assoc|]; reflexivity.
Qed.
Lemma stat_get_set t f s t' : stat_get t' (stat_set t f s) = if (t' =? t)%N then f else stat_get t' s.
Proof.
  induction s as [|(t0, f0) s IH]; cbn [stat_set stat_get]; [reflexivity|]. destruct (N.eqb_spec t t0) as [->|N]; cbn [stat_get]; [destruct (t' =? t0)%N; reflexivity|].
  rewrite IH. destruct (N.eqb_spec t' t0) as [->|N']; [|reflexivity]. destruct (N.eqb_spec t0 t); [congruence|reflexivity].
Qed.
Lemma frame_fold t m l : forall s, frame_get (stat_get t (fold_left add_entry l s)) m =
  acc_merge (frame_get (stat_get t s) m) (msum m (filter (fun e => (trunc (decode_ts (fst e)) =? t)%N) l)).
Proof.
  induction l as [|e l IH]; intros s; cbn [fold_left filter]; [symmetry; apply merge_unit_r|]. rewrite IH. unfold stat_add. rewrite stat_get_set, (N.eqb_sym t).
  destruct (N.eqb_spec (trunc (decode_ts (fst e))) t) as [->|N]; [|reflexivity]. rewrite frame_add_get. cbn [msum fold_right].
  fold (msum m (filter (fun e => (trunc (decode_ts (fst e)) =? t)%N) l)). destruct (m =? fst (snd e)); [rewrite merge_assoc|]; reflexivity.
Qed.
Definition good_frames (s : stats) : Prop := forall f, In f (map snd s) -> NoDup (map fst f).
Lemma stat_get_good s t : good_frames s -> NoDup (map fst (stat_get t s)).
Proof.
  unfold good_frames. induction s as [|(t', f) s IH]; intros G; cbn [stat_get]; [apply NoDup_nil|]. destruct (t =? t')%N; [apply G; left; reflexivity|].
  apply IH. intros f' X. apply G. right. exact X.
Qed.
Lemma stat_set_good s t f : good_frames s -> NoDup (map fst f) -> good_frames (stat_set t f s).
Proof.
  unfold good_frames. intros G N. induction s as [|(t', f') s IH]; cbn [stat_set map snd]; [intros x [<-|[]]; exact N|].
  destruct (t =? t')%N; cbn [map snd]; intros x [<-|X].
  - exact N.
  - apply G. right. exact X.
  - apply G. left. reflexivity.
  - apply IH; [intros y Y; apply G; right; exact Y|exact X].
Qed.
Lemma fold_good l : forall s, good_frames s -> good_frames (fold_left add_entry l s).
Proof.
  induction l as [|e l IH]; intros s G; [exact G|]. cbn [fold_left]. apply IH. unfold stat_add. apply stat_set_good; [exact G|].
  unfold frame_add. apply nodup_set, stat_get_good, G.
Qed.
Lemma total_tot s m : good_frames s -> frame_get (total s) m = tot s m.
Proof. intros G. unfold total, tot. apply (merge_all_ok (length s) (map snd s)); [rewrite map_length; lia|exact G]. Qed.

(** what was written, summed *)
Lemma perm_filter {A} (q : A -> bool) l l' : Permutation l l' -> Permutation (filter q l) (filter q l').
Proof.
  induction 1 as [|x l l' _ IH|x y l|l l' l'' _ IH1 _ IH2]; simpl; [apply perm_nil| | |eapply perm_trans; eassumption].
  - destruct (q x); [apply perm_skip|]; exact IH.
  - destruct (q x), (q y); try apply Permutation_refl. apply perm_swap.
Qed.
Lemma entries_sum clock (q : N -> bool) m ws : forall i k, is_name m = true -> good_clock clock k -> timed clock i ws -> i + length ws <= k ->
  (forall w, In w ws -> w_values w <> []) ->
  msum m (filter (fun e => is_name (fst (snd e)) && q (decode_ts (fst e))) (entries i ws)) = summary (asked q m ws).
Proof.
  induction ws as [|w ws IH]; intros i k NM G T L V; [reflexivity|]. cbn [length] in L.
  assert (TW : w_at w = clock i) by (rewrite (T 0 w eq_refl); f_equal; lia).
  assert (B : (w_at w < ts_mod)%N) by (rewrite TW; apply G; lia).
  cbn [entries filter asked flat_map]. fold (asked q m ws). rewrite summary_app.
  specialize (IH (S i) k NM G). rewrite <- IH; [|intros j w' E; rewrite (T (S j) w' E); f_equal; lia|lia|intros w' I; apply V; right; exact I].
  unfold entry at 1 2. cbn [fst snd]. rewrite key_ts by exact B.
  destruct (q (w_at w)) eqn:Q; rewrite ?andb_false_r, ?andb_true_r; cbn [andb]; [|symmetry; apply merge_unit_l].
  destruct (Nat.eqb_spec (w_name w) m) as [E|N].
  - rewrite E, NM. cbn [msum fold_right]. unfold entry at 1 2. cbn [fst snd]. rewrite E, Nat.eqb_refl.
    rewrite (proj2 (pack_summary (w_values w) (V w (or_introl eq_refl)))). reflexivity.
  - destruct (is_name (w_name w)); [|symmetry; apply merge_unit_l]. cbn [msum fold_right]. unfold entry at 1. cbn [fst snd].
    destruct (Nat.eqb_spec m (w_name w)); [congruence|]. symmetry. apply merge_unit_l.
Qed.
End Load.

(** *** all stored at one time *)
Lemma inc_nodup s : inc s -> NoDup (map fst s).
Proof.
  induction s as [|e s IH]; simpl; [intros; apply NoDup_nil|]. intros (A & B). apply NoDup_cons; [|auto].
  intros I. apply in_map_iff in I as (e' & E & I). specialize (A e' I). rewrite E in A. lia.
Qed.
Definition in_tick (t : N) (s : store) : Prop := forall e, In e s -> exists q, (q < seq_mod)%N /\ fst e = ((t mod ts_mod) * seq_mod + q)%N.
Lemma tick_length t s : inc s -> in_tick t s -> (N.of_nat (length s) <= seq_mod)%N.
Proof.
  intros I H. rewrite <- (map_length fst).
  assert (L : length (map fst s) <= length (map (fun i => ((t mod ts_mod) * seq_mod + N.of_nat i)%N) (seq 0 (N.to_nat seq_mod)))).
  { apply NoDup_incl_length; [apply inc_nodup, I|]. intros k K. apply in_map_iff in K as (e & <- & K). destruct (H e K) as (q & Q & ->).
    apply in_map_iff. exists (N.to_nat q). split; [rewrite N2Nat.id; reflexivity|]. apply in_seq. lia. }
  rewrite !map_length, seq_length in L. rewrite map_length. lia.
Qed.
Lemma put_tick t k v s : in_tick t s -> (exists q, (q < seq_mod)%N /\ k = ((t mod ts_mod) * seq_mod + q)%N) -> in_tick t (put k v s).
Proof. intros H K e E. apply put_in in E as [->|E]; [exact K|apply H, E]. Qed.
Lemma store_all_tick t l : forall c c', inc (kv c) -> in_tick t (kv c) -> store_all (fun _ => t) c l = Some c' -> inc (kv c') /\ in_tick t (kv c').
Proof.
  induction l as [|(n, a) l IH]; intros c c' I H; cbn [store_all]; [intros E; injection E as <-; auto|]. unfold store_event. cbn [encode_value].
  destruct (closed c); [apply IH; assumption|]. destruct (to_bytes a); [|discriminate]. apply IH; cbn [kv]; [apply put_inc, I|].
  apply put_tick; [exact H|]. exists (seq_no c mod seq_mod)%N. split; [apply N.mod_lt; discriminate|reflexivity].
Qed.
Lemma run_tick t os : forall c c', inc (kv c) -> in_tick t (kv c) -> run (fun _ => t) c os = Some c' -> inc (kv c') /\ in_tick t (kv c').
Proof.
  induction os as [|[n v| |] os IH]; intros c c' I H; cbn [run step]; [intros E; injection E as <-; auto|apply IH; assumption| |apply IH; assumption].
  unfold flush. destruct (store_all (fun _ => t) c (accs c)) as [c1|] eqn:E; [|discriminate]. destruct (store_all_tick t _ _ _ I H E) as (A & B).
  apply IH; assumption.
Qed.
(** closed *)
Lemma store_all_closed clock l : forall c, closed c = true -> store_all clock c l = Some c.
Proof. induction l as [|(n, a) l IH]; intros c C; [reflexivity|]. cbn [store_all]. unfold store_event. rewrite C. apply IH, C. Qed.
Lemma run_closed clock os : forall c, closed c = true -> exists c', run clock c os = Some c' /\ kv c' = kv c.
Proof.
  induction os as [|[n v| |] os IH]; intros c C; cbn [run step]; [exists c; auto| | |].
  - apply (IH (add_event c n v) C).
  - unfold flush. rewrite store_all_closed by exact C. apply (IH (Collector (kv c) (closed c) (seq_no c) [] (reads c)) C).
  - apply (IH (close c) eq_refl).
Qed.
Lemma run_app clock a : forall c b, run clock c (a ++ b) = match run clock c a with Some c' => run clock c' b | None => None end.
Proof. induction a as [|o a IH]; intros c b; [reflexivity|]. cbn [app run]. destruct (step clock c o); [apply IH|reflexivity]. Qed.
