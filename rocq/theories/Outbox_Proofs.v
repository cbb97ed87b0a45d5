From Coq Require Import List Arith Bool Lia.
From Verif Require Import Outbox_Model Outbox_Spec.
Import ListNotations.

Lemma handle_fits : forall c snd m, fits m (Datatypes.snd (handle c snd m)).
Proof.
  intros c snd [x|v k|d|x|x|x]; cbn [handle Datatypes.snd]; try constructor.
  - destruct c; constructor.
  - destruct (find d snd); constructor.
Qed.
Lemma serve_split : forall c per b num i snd r snd' t x, serve c per num i b snd = (r, snd', t, x) ->
  map e_msg t ++ r = b /\ Forall (fun e => e_inst e = i /\ fits (e_msg e) (e_out e)) t.
Proof.
  intros c per b. induction b as [|m b IH]; intros num i snd r snd' t x H; cbn [serve] in H.
  - injection H as <- <- <- <-. split; [reflexivity | constructor].
  - pose proof (handle_fits c snd m) as F. destruct (handle c snd m) as [snd1 w] eqn:Hd. cbn [Datatypes.snd] in F. destruct (raised w).
    + injection H as <- <- <- <-. split; [reflexivity|]. now constructor.
    + destruct (full per (S num)).
      * injection H as <- <- <- <-. split; [reflexivity|]. now constructor.
      * destruct (serve c per (S num) i b snd1) as [[[r2 snd2] t2] x2] eqn:Hs. injection H as <- <- <- <-.
        destruct (IH _ _ _ _ _ _ _ Hs) as [A B]. split; [cbn; now rewrite A | constructor; [split; [reflexivity | exact F] | exact B]].
Qed.
Lemma handed_app : forall i a b, handed i (a ++ b) = handed i a ++ handed i b.
Proof. intros. unfold handed. now rewrite filter_app, map_app. Qed.
Lemma handed_same : forall i t, Forall (fun e => e_inst e = i) t -> handed i t = map e_msg t.
Proof.
  intros i t H. unfold handed. induction H as [|e t E H IH]; [reflexivity|]. cbn [filter]. rewrite E, Nat.eqb_refl. cbn [map]. now rewrite IH.
Qed.
Lemma handed_other : forall i j t, i <> j -> Forall (fun e => e_inst e = j) t -> handed i t = [].
Proof.
  intros i j t N H. unfold handed. induction H as [|e t E H IH]; [reflexivity|]. cbn [filter]. destruct (Nat.eqb_spec (e_inst e) i); [congruence|]. exact IH.
Qed.
Lemma forall_fst : forall {A} (P Q : A -> Prop) l, Forall (fun e => P e /\ Q e) l -> Forall P l /\ Forall Q l.
Proof. intros A P Q l H. induction H as [|e l [X Y] H [I J]]; split; constructor; assumption. Qed.

Lemma waiting_none : forall i bs, ~ In i (map fst bs) -> waiting i bs = [].
Proof.
  intros i bs. induction bs as [|[j b] bs IH]; intros H; [reflexivity|]. cbn [waiting]. cbn [map fst In] in H.
  destruct (Nat.eqb_spec j i); [exfalso; apply H; now left|]. apply IH. tauto.
Qed.
Lemma serve_all_split : forall c per bs snd bs' snd' t x, NoDup (map fst bs) -> serve_all c per bs snd = (bs', snd', t, x) ->
  map fst bs' = map fst bs /\ (forall i, handed i t ++ waiting i bs' = waiting i bs) /\ (forall i, ~ In i (map fst bs) -> handed i t = [])
  /\ Forall (fun e => fits (e_msg e) (e_out e)) t.
Proof.
  intros c per bs. induction bs as [|[j b] bs IH]; intros snd bs' snd' t x ND H; cbn [serve_all] in H.
  - injection H as <- <- <- <-. repeat split; auto.
  - cbn [map fst] in ND. inversion ND as [|? ? NJ ND']; subst.
    destruct (serve c per 0 j b snd) as [[[b1 snd1] t1] x1] eqn:Hs. destruct (serve_split _ _ _ _ _ _ _ _ _ _ Hs) as [A B].
    apply forall_fst in B as [B F]. destruct x1.
    + injection H as <- <- <- <-. split; [reflexivity|]. split; [|split; [|exact F]].
      * intros i. cbn [waiting]. destruct (Nat.eqb_spec j i) as [<-|N]; [now rewrite (handed_same _ _ B)|].
        rewrite (handed_other i j) by (auto). reflexivity.
      * intros i N. cbn [map fst In] in N. apply (handed_other i j); [intros ->; apply N; now left | exact B].
    + destruct (serve_all c per bs snd1) as [[[r2 snd2] t2] x2] eqn:Hr. injection H as <- <- <- <-.
      destruct (IH _ _ _ _ _ ND' Hr) as (I1 & I2 & I3 & I4). split; [cbn [map fst]; now rewrite I1|]. split; [|split].
      * intros i. rewrite handed_app. cbn [waiting]. destruct (Nat.eqb_spec j i) as [<-|N].
        -- rewrite (I3 j NJ), app_nil_r, (handed_same _ _ B). exact A.
        -- rewrite (handed_other i j) by auto. cbn [app]. apply I2.
      * intros i N. cbn [map fst In] in N. rewrite handed_app, (handed_other i j), I3; [reflexivity | tauto | | exact B]. intros ->. tauto.
      * apply Forall_app. now split.
Qed.

Inductive above : nat -> list nat -> Prop := ANil a : above a [] | ACons a b l : a < b -> above b l -> above a (b :: l).
Definition sorted (l : list nat) : Prop := match l with [] => True | a :: r => above a r end.
Lemma above_lt : forall a l, above a l -> forall x, In x l -> a < x.
Proof. intros a l H. induction H as [|a b l L H IH]; intros x []; [lia|]. specialize (IH x H0). lia. Qed.
Lemma above_sorted : forall a l, above a l -> sorted l.
Proof. intros a l H. destruct H; [exact I | exact H0]. Qed.
Lemma sorted_nodup : forall l, sorted l -> NoDup l.
Proof.
  intros l. induction l as [|a l IH]; intros H; constructor; [|apply IH; now apply (above_sorted a)].
  intros X. apply (above_lt _ _ H) in X. lia.
Qed.
Lemma above_weaken : forall a b l, a <= b -> above b l -> above a l.
Proof. intros a b l L H. destruct H; constructor; [lia | assumption]. Qed.
Lemma add_above : forall bs a i, a < i -> above a (map fst bs) -> ~ In i (map fst bs) -> above a (map fst (add i bs)).
Proof.
  intros bs. induction bs as [|[j b] bs IH]; intros a i L H N; [cbn; constructor; [exact L | constructor]|].
  cbn [map fst] in H. inversion H as [|? ? ? L2 H2]; subst. cbn [add]. cbn [map fst In] in N. destruct (Nat.ltb_spec i j).
  - cbn [map fst]. constructor; [exact L|]. now constructor.
  - cbn [map fst]. constructor; [exact L2|]. apply IH; [|exact H2 | tauto]. assert (j <> i) by tauto. lia.
Qed.
Lemma add_sorted : forall bs i, sorted (map fst bs) -> ~ In i (map fst bs) -> sorted (map fst (add i bs)).
Proof.
  intros [|[j b] bs] i H N; [constructor|]. cbn [add]. cbn [map fst In sorted] in *. destruct (Nat.ltb_spec i j).
  - cbn [map fst sorted]. now constructor.
  - cbn [map fst sorted]. apply add_above; [|exact H|tauto]. assert (j <> i) by tauto. lia.
Qed.
Lemma filter_above : forall f (bs : list (nat * list msg)) a, above a (map fst bs) -> above a (map fst (filter f bs)).
Proof.
  intros f bs. induction bs as [|[j b] bs IH]; intros a H; [constructor|]. cbn [map fst] in H. inversion H as [|? ? ? L2 H2]; subst.
  cbn [filter]. destruct (f (j, b)); [cbn [map fst]; constructor; [exact L2 | now apply IH]|]. apply IH. apply (above_weaken a j); [lia | exact H2].
Qed.
Lemma filter_sorted : forall f (bs : list (nat * list msg)), sorted (map fst bs) -> sorted (map fst (filter f bs)).
Proof.
  intros f [|[j b] bs] H; [exact I|]. cbn [filter]. cbn [map fst sorted] in H. destruct (f (j, b)).
  - cbn [map fst sorted]. now apply filter_above.
  - apply (above_sorted j). now apply filter_above.
Qed.
Lemma put_fst : forall i m bs, map fst (put i m bs) = map fst bs.
Proof. intros. unfold put. rewrite map_map. apply map_ext. intros [j b]. cbn [fst]. now destruct (j =? i). Qed.
Lemma has_in : forall i bs, has i bs = true <-> In i (map fst bs).
Proof.
  intros. unfold has. rewrite existsb_exists. split.
  - intros ([j b] & A & B). cbn [fst] in B. apply Nat.eqb_eq in B. subst. now apply (in_map fst) in A.
  - intros H. apply in_map_iff in H as ([j b] & <- & B). exists (j, b). split; [exact B | apply Nat.eqb_refl].
Qed.

Definition wf (s : node) : Prop := sorted (map fst (boxes s)).
Lemma turn_spec : forall s limit, wf s -> exists t, trace (turn s limit) = trace s ++ t
  /\ map fst (boxes (turn s limit)) = map fst (boxes s)
  /\ (forall i, handed i t ++ waiting i (boxes (turn s limit)) = waiting i (boxes s))
  /\ Forall (fun e => fits (e_msg e) (e_out e)) t.
Proof.
  intros s limit W. unfold turn. destruct (serve_all _ _ _ _) as [[[bs snd] t] x] eqn:E.
  apply serve_all_split in E as (A & B & _ & F); [|now apply sorted_nodup]. exists t. cbn [trace boxes]. auto.
Qed.
Lemma wf_step : forall s o, wf s -> wf (step s o).
Proof.
  intros s [i m|d c|d|limit| |b|i|i] W; unfold wf in *; cbn [step boxes]; try exact W.
  - now rewrite put_fst.
  - destruct (turn_spec s limit W) as (t & _ & A & _). now rewrite A.
  - unfold force. cbn [boxes]. rewrite map_map. exact W.
  - destruct (has i (boxes s)) eqn:H; [exact W|]. cbn [boxes]. apply add_sorted; [exact W|]. rewrite <- has_in. now rewrite H.
  - now apply filter_sorted.
Qed.
Lemma wf_run : forall h s, wf s -> wf (run s h).
Proof. intros h. induction h as [|o h IH]; intros s W; [exact W|]. cbn. apply IH. now apply wf_step. Qed.

Lemma waiting_put : forall i j m bs, sorted (map fst bs) -> waiting i (put j m bs) = waiting i bs ++ (if (j =? i) && has i bs then [m] else []).
Proof.
  intros i j m bs. induction bs as [|[k b] bs IH]; intros H.
  - cbn [put map waiting has existsb]. rewrite andb_false_r. reflexivity.
  - cbn [put map fst snd waiting has existsb]. fold (put j m bs). fold (has i bs).
    assert (IH' := IH (above_sorted k _ H)). destruct (Nat.eqb_spec k j) as [Ekj|Nkj]; cbn [waiting]; destruct (Nat.eqb_spec k i) as [Eki|Nki]; cbn [orb].
    + replace (j =? i) with true by (symmetry; apply Nat.eqb_eq; congruence). reflexivity.
    + exact IH'.
    + replace (j =? i) with false by (symmetry; apply Nat.eqb_neq; congruence). cbn [andb]. now rewrite app_nil_r.
    + exact IH'.
Qed.
Lemma waiting_add : forall i j bs, ~ In j (map fst bs) -> waiting i (add j bs) = waiting i bs.
Proof.
  intros i j bs. induction bs as [|[k b] bs IH]; intros H; cbn [add waiting].
  - now destruct (j =? i).
  - cbn [map fst In] in H. destruct (j <? k); cbn [waiting].
    + destruct (Nat.eqb_spec j i) as [<-|]; [|reflexivity]. destruct (Nat.eqb_spec k j); [tauto|]. symmetry. apply waiting_none. tauto.
    + destruct (k =? i); [reflexivity|]. apply IH. tauto.
Qed.
Lemma in_add : forall i j bs, In i (map fst (add j bs)) <-> i = j \/ In i (map fst bs).
Proof.
  intros i j bs. induction bs as [|[k b] bs IH]; cbn [add map fst In]; [intuition|]. destruct (j <? k); cbn [map fst In]; [intuition|]. rewrite IH. intuition.
Qed.
Lemma waiting_filter : forall i j bs, i <> j -> waiting i (filter (fun p : nat * list msg => negb (fst p =? j)) bs) = waiting i bs.
Proof.
  intros i j bs N. induction bs as [|[k b] bs IH]; [reflexivity|]. cbn [filter fst waiting]. destruct (Nat.eqb_spec k j) as [->|]; cbn [negb waiting].
  - destruct (Nat.eqb_spec j i); [congruence | exact IH].
  - now rewrite IH.
Qed.
Lemma waiting_map : forall f i bs, waiting i (map (fun p : nat * list msg => (fst p, filter f (snd p))) bs) = filter f (waiting i bs).
Proof. intros f i bs. induction bs as [|[k b] bs IH]; [reflexivity|]. cbn [map fst snd waiting]. now destruct (k =? i). Qed.
Lemma take_handed : forall c i j b, handed i (take c (j, b)) = if j =? i then filter is_ord b else [].
Proof.
  intros c i j b. unfold take, handed. cbn [fst snd]. induction (filter is_ord b) as [|m l IH]; [now destruct (j =? i)|].
  cbn [map filter e_inst]. destruct (j =? i); cbn [map e_msg]; [now rewrite IH | exact IH].
Qed.
Lemma force_handed : forall c i bs, sorted (map fst bs) -> handed i (flat_map (take c) bs) = filter is_ord (waiting i bs).
Proof.
  intros c i bs. induction bs as [|[j b] bs IH]; intros W; [reflexivity|]. cbn [flat_map waiting]. rewrite handed_app, take_handed.
  rewrite IH by (now apply (above_sorted j)). destruct (Nat.eqb_spec j i) as [<-|]; [|reflexivity].
  rewrite (waiting_none j bs); [apply app_nil_r|]. intros X. pose proof (above_lt j (map fst bs) W j X). lia.
Qed.
Lemma filter_filter : forall {A} (f g : A -> bool) l, filter f (filter g l) = filter (fun x => f x && g x) l.
Proof.
  intros A f g l. induction l as [|a l IH]; [reflexivity|]. cbn [filter]. destruct (g a); cbn [filter]; rewrite ?andb_true_r, ?andb_false_r, IH; reflexivity.
Qed.
Lemma filter_false : forall {A} (f : A -> bool) l, (forall x, f x = false) -> filter f l = [].
Proof. intros A f l H. induction l as [|a l IH]; [reflexivity|]. cbn [filter]. now rewrite H. Qed.
Lemma filter_same : forall {A} (f g : A -> bool) l, (forall x, f x = g x) -> filter f l = filter g l.
Proof. intros A f g l H. induction l as [|a l IH]; [reflexivity|]. cbn [filter]. now rewrite H, IH. Qed.

(** what instance [i] has put and still counts *)
Definition own (i : nat) (s : node) (f : msg -> bool) : list msg := filter f (handed i (trace s)) ++ filter f (waiting i (boxes s)).
Definition new (i : nat) (s : node) (o : op) : list msg :=
  match o with Put j m => if (j =? i) && has i (boxes s) then [m] else [] | _ => [] end.
Lemma own_step : forall i s o f, wf s -> o <> Remove i -> (f = is_ord \/ f = not_ord \/ o <> Catchup) ->
  own i (step s o) f = own i s f ++ filter f (new i s o).
Proof.
  intros i s o f W NR C. unfold own, new. destruct o as [j m|d c|d|limit| |b|j|j]; cbn [step trace boxes filter]; rewrite ?app_nil_r; try reflexivity.
  - rewrite waiting_put by exact W. now rewrite filter_app, app_assoc.
  - destruct (turn_spec s limit W) as (t & T & _ & B & _). rewrite T, handed_app, filter_app, <- app_assoc, <- filter_app, B. reflexivity.
  - unfold force. cbn [trace boxes]. rewrite handed_app, force_handed, waiting_map, filter_app, <- app_assoc by exact W. f_equal.
    rewrite !filter_filter. destruct C as [->|[->|C]]; [| |congruence].
    + rewrite (filter_false (fun x => is_ord x && negb (is_ord x))) by (intros x; apply andb_negb_r). rewrite app_nil_r.
      apply filter_same. intros x. apply andb_diag.
    + rewrite (filter_false (fun x => not_ord x && is_ord x)) by (intros x; unfold not_ord; now destruct (is_ord x)). cbn [app].
      apply filter_same. intros x. unfold not_ord. apply andb_diag.
  - destruct (has j (boxes s)) eqn:H; [reflexivity|]. cbn [trace boxes]. rewrite waiting_add; [reflexivity|]. rewrite <- has_in. now rewrite H.
  - rewrite waiting_filter by congruence. reflexivity.
Qed.
Lemma has_step : forall i s o, wf s -> o <> Remove i -> has i (boxes (step s o)) = has i (boxes s) || match o with Add j => j =? i | _ => false end.
Proof.
  intros i s o W NR. apply eq_true_iff_eq. rewrite orb_true_iff, !has_in.
  destruct o as [j m|d c|d|limit| |b|j|j]; cbn [step boxes]; try (intuition congruence).
  - rewrite put_fst. intuition congruence.
  - destruct (turn_spec s limit W) as (t & _ & A & _). rewrite A. intuition congruence.
  - unfold force. cbn [boxes]. rewrite map_map. cbn [fst]. intuition congruence.
  - rewrite Nat.eqb_eq. destruct (has j (boxes s)) eqn:H.
    + split; [auto|]. intros [A| ->]; [exact A | now apply has_in].
    + cbn [boxes]. rewrite in_add. intuition congruence.
  - assert (N : i <> j) by congruence. rewrite !in_map_iff. split.
    + intros (p & E & F). apply filter_In in F as [F _]. left. now exists p.
    + intros [(p & E & F)|X]; [|discriminate]. exists p. split; [exact E|]. apply filter_In. split; [exact F|]. rewrite E.
      apply Nat.eqb_neq in N. now rewrite N.
Qed.
Lemma own_run : forall i f h s, wf s -> ~ In (Remove i) h -> (f = is_ord \/ f = not_ord \/ ~ In Catchup h) ->
  own i (run s h) f = own i s f ++ filter f (puts i (has i (boxes s)) h).
Proof.
  intros i f h. induction h as [|o h IH]; intros s W NR C; [symmetry; apply app_nil_r|]. cbn [run fold_left]. fold (run (step s o) h).
  cbn [In] in NR, C. assert (NR1 : o <> Remove i) by tauto.
  rewrite IH; [|now apply wf_step | tauto | tauto]. rewrite own_step; [|exact W | exact NR1 | destruct C as [->|[->|C]]; auto; right; right; tauto].
  rewrite <- app_assoc. f_equal. rewrite <- filter_app. f_equal. rewrite has_step by assumption.
  destruct o as [j m|d c|d|limit| |b|j|j]; cbn [new puts app]; rewrite ?orb_false_r; try reflexivity.
  now destruct ((j =? i) && has i (boxes s)).
Qed.

(** outcomes *)
Lemma fits_step : forall s o, wf s -> exists t, trace (step s o) = trace s ++ t /\ Forall (fun e => fits (e_msg e) (e_out e)) t.
Proof.
  intros s o W. destruct o as [j m|d c|d|limit| |b|j|j]; cbn [step trace]; try (exists []; rewrite app_nil_r; split; [reflexivity | constructor]).
  - destruct (turn_spec s limit W) as (t & T & _ & _ & F). now exists t.
  - exists (flat_map (take (can s)) (boxes s)). split; [reflexivity|]. apply Forall_forall. intros e H. apply in_flat_map in H as (p & _ & H).
    unfold take in H. apply in_map_iff in H as (m & <- & H). apply filter_In in H as [_ H]. destruct m; try discriminate. cbn [e_msg e_out]. destruct (can s); constructor.
  - exists []. rewrite app_nil_r. split; [now destruct (has j (boxes s)) | constructor].
Qed.
Lemma fits_run : forall h s, wf s -> Forall (fun e => fits (e_msg e) (e_out e)) (trace s) -> Forall (fun e => fits (e_msg e) (e_out e)) (trace (run s h)).
Proof.
  intros h. induction h as [|o h IH]; intros s W F; [exact F|]. cbn. apply IH; [now apply wf_step|].
  destruct (fits_step s o W) as (t & -> & G). apply Forall_app. now split.
Qed.

(** whether Ordereds are processed *)
Definition all_or (c : bool) (e : entry) : Prop := is_ord (e_msg e) = true -> e_out e = if c then Processed else Dropped.
Lemma serve_or : forall c per b num i snd r snd' t x, serve c per num i b snd = (r, snd', t, x) -> Forall (all_or c) t.
Proof.
  intros c per b. induction b as [|m b IH]; intros num i snd r snd' t x H; cbn [serve] in H.
  - injection H as <- <- <- <-. constructor.
  - assert (O : forall w, handle c snd m = (fst (handle c snd m), w) -> all_or c (Entry i m w)).
    { intros w E Q. cbn [e_msg e_out] in *. destruct m; try discriminate. cbn [handle fst] in E. congruence. }
    destruct (handle c snd m) as [snd1 w] eqn:Hd. specialize (O w eq_refl). destruct (raised w).
    + injection H as <- <- <- <-. now constructor.
    + destruct (full per (S num)); [injection H as <- <- <- <-; now constructor|].
      destruct (serve c per (S num) i b snd1) as [[[r2 snd2] t2] x2] eqn:Hs. injection H as <- <- <- <-. constructor; [exact O | exact (IH _ _ _ _ _ _ _ Hs)].
Qed.
Lemma serve_all_or : forall c per bs snd bs' snd' t x, serve_all c per bs snd = (bs', snd', t, x) -> Forall (all_or c) t.
Proof.
  intros c per bs. induction bs as [|[j b] bs IH]; intros snd bs' snd' t x H; cbn [serve_all] in H; [injection H as <- <- <- <-; constructor|].
  destruct (serve c per 0 j b snd) as [[[b1 snd1] t1] x1] eqn:Hs. apply serve_or in Hs. destruct x1; [injection H as <- <- <- <-; exact Hs|].
  destruct (serve_all c per bs snd1) as [[[r2 snd2] t2] x2] eqn:Hr. injection H as <- <- <- <-. apply Forall_app. split; [exact Hs | exact (IH _ _ _ _ _ Hr)].
Qed.
Lemma or_step : forall s o, exists t, trace (step s o) = trace s ++ t /\ Forall (all_or (can s)) t /\ (hands_over o = false -> t = []).
Proof.
  intros s o. destruct o as [j m|d c|d|limit| |b|j|j]; cbn [step trace]; try (exists []; rewrite app_nil_r; split; [reflexivity | split; [constructor | reflexivity]]).
  - unfold turn. destruct (serve_all _ _ _ _) as [[[bs snd] t] x] eqn:E. apply serve_all_or in E. exists t. split; [reflexivity|]. split; [exact E | discriminate].
  - exists (flat_map (take (can s)) (boxes s)). split; [reflexivity|]. split; [|discriminate]. apply Forall_forall. intros e H. apply in_flat_map in H as (p & _ & H).
    unfold take in H. apply in_map_iff in H as (m & <- & H). intros _. reflexivity.
  - exists []. rewrite app_nil_r. split; [now destruct (has j (boxes s)) | split; [constructor | reflexivity]].
Qed.
Lemma can_step : forall s o, can (step s o) = ready (can s) [o].
Proof.
  intros s [i m|d c|d|limit| |b|i|i]; try reflexivity; cbn [step ready can].
  - unfold turn. now destruct (serve_all _ _ _ _) as [[[bs snd] t] x].
  - now destruct (has i (boxes s)).
Qed.
Lemma ready_cons : forall o h b, ready b (o :: h) = ready (ready b [o]) h.
Proof. intros [] h b0; reflexivity. Qed.
Lemma can_run : forall h s, can (run s h) = ready (can s) h.
Proof. intros h. induction h as [|o h IH]; intros s; [reflexivity|]. cbn [run fold_left]. fold (run (step s o) h). rewrite IH, can_step, <- ready_cons. reflexivity. Qed.

Definition fits_e (e : entry) : Prop := fits (e_msg e) (e_out e).
Definition good_e (e : entry) : Prop := is_ord (e_msg e) = is_processed (e_out e).
Lemma good_run : forall h s, wf s -> Forall good_e (trace s) ->
  (forall h1 o h2, h = h1 ++ o :: h2 -> hands_over o = true -> ready (can s) h1 = true) -> Forall good_e (trace (run s h)).
Proof.
  intros h. induction h as [|o h IH]; intros s W F R; [exact F|]. cbn. apply IH.
  - now apply wf_step.
  - destruct (or_step s o) as (t & T & O & Z). destruct (fits_step s o W) as (t' & T' & G). rewrite T in T'. apply app_inv_head in T' as <-.
    rewrite T. apply Forall_app. split; [exact F|]. destruct (hands_over o) eqn:Ho; [|rewrite Z by reflexivity; constructor].
    specialize (R [] o h eq_refl Ho). cbn [ready] in R. rewrite R in O. apply Forall_forall. intros e He. rewrite Forall_forall in O, G.
    specialize (O e He). specialize (G e He). unfold good_e, all_or in *. destruct (is_ord (e_msg e)) eqn:Io.
    + now rewrite O.
    + destruct G; try discriminate; reflexivity.
  - intros h1 o' h2 E Ho. rewrite can_step, <- ready_cons. apply (R (o :: h1) o' h2); [now rewrite E | exact Ho].
Qed.
Lemma processed_good : forall i t, Forall good_e t -> processed i t = filter is_ord (handed i t).
Proof.
  intros i t F. unfold processed, handed. induction F as [|e t G F IH]; [reflexivity|]. cbn [filter]. destruct (e_inst e =? i); cbn [andb map filter]; [|exact IH].
  unfold good_e in G. rewrite G. destruct (is_processed (e_out e)); cbn [map]; now rewrite IH.
Qed.

(** one turn without exceptions *)
Lemma serve_calm : forall c per b num i snd r snd' t x, existsb is_exn b = false -> serve c per num i b snd = (r, snd', t, x) ->
  x = false /\ r = match per with Some p => skipn (if p <=? num then 1 else p - num) b | None => [] end.
Proof.
  intros c per b. induction b as [|m b IH]; intros num i snd r snd' t x C H; cbn [serve] in H.
  - injection H as <- <- <- <-. split; [reflexivity|]. destruct per; [|reflexivity]. now rewrite skipn_nil.
  - cbn [existsb] in C. apply orb_false_iff in C as [C1 C2]. destruct (handle c snd m) as [snd1 w] eqn:Hd.
    assert (N : raised w = false).
    { destruct m as [y|v k|d|y|y|y]; cbn [handle] in Hd; try discriminate; try (injection Hd as <- <-; now destruct c).
      destruct (find d snd); now injection Hd as <- <-. }
    rewrite N in H. destruct per as [p|]; cbn [full] in H.
    + destruct (Nat.leb_spec p (S num)).
      * injection H as <- <- <- <-. split; [reflexivity|]. destruct (Nat.leb_spec p num); [reflexivity|]. now replace (p - num) with 1 by lia.
      * destruct (serve c (Some p) (S num) i b snd1) as [[[r2 snd2] t2] x2] eqn:Hs. injection H as <- <- <- <-.
        destruct (IH _ _ _ _ _ _ _ C2 Hs) as [A B]. split; [exact A|]. rewrite B. destruct (Nat.leb_spec p (S num)); [lia|].
        destruct (Nat.leb_spec p num); [lia|]. replace (p - num) with (S (p - S num)) by lia. reflexivity.
    + destruct (serve c None (S num) i b snd1) as [[[r2 snd2] t2] x2] eqn:Hs. injection H as <- <- <- <-. exact (IH _ _ _ _ _ _ _ C2 Hs).
Qed.
Definition rest (per : option nat) (b : list msg) : list msg := match per with Some p => skipn p b | None => [] end.
Lemma serve_all_calm : forall c per bs snd bs' snd' t x, (forall p, per = Some p -> 1 <= p) -> (forall i b, In (i, b) bs -> existsb is_exn b = false) ->
  serve_all c per bs snd = (bs', snd', t, x) -> x = false /\ bs' = map (fun p => (fst p, rest per (Datatypes.snd p))) bs.
Proof.
  intros c per bs. induction bs as [|[j b] bs IH]; intros snd bs' snd' t x P C H; cbn [serve_all] in H; [now injection H as <- <- <- <-|].
  destruct (serve c per 0 j b snd) as [[[b1 snd1] t1] x1] eqn:Hs. apply serve_calm in Hs as [-> ->]; [|apply (C j); now left].
  destruct (serve_all c per bs snd1) as [[[r2 snd2] t2] x2] eqn:Hr. injection H as <- <- <- <-.
  apply IH in Hr as [-> ->]; [|exact P | intros i b' Hi; apply (C i); now right]. split; [reflexivity|]. cbn [map fst Datatypes.snd]. f_equal. f_equal.
  destruct per as [p|]; [|reflexivity]. specialize (P p eq_refl). cbn [rest]. destruct (Nat.leb_spec p 0); [lia|]. now rewrite Nat.sub_0_r.
Qed.
Lemma calm_in : forall s, wf s -> calm s -> forall i b, In (i, b) (boxes s) -> existsb is_exn b = false.
Proof.
  intros s W C i b H. specialize (C i). assert (E : waiting i (boxes s) = b); [|now rewrite E in C].
  apply sorted_nodup in W. clear C. revert W H. generalize (boxes s) as bs. intros bs. induction bs as [|[j b'] bs IH]; intros W H; [destruct H|].
  cbn [map fst] in W. inversion W as [|? ? NJ ND]; subst. cbn [waiting]. destruct H as [E|H].
  - injection E as -> ->. now rewrite Nat.eqb_refl.
  - destruct (Nat.eqb_spec j i) as [->|]; [|now apply IH]. exfalso. apply NJ. now apply (in_map fst) in H.
Qed.
Lemma per_pos : forall limit n p, per_replica limit n = Some p -> 1 <= p.
Proof. intros [l|] n p H; [|discriminate]. cbn [per_replica] in H. injection H as <-. destruct (Nat.eqb_spec (rounded l n) 0); lia. Qed.
Lemma turn_calm : forall s limit, wf s -> calm s ->
  boxes (turn s limit) = map (fun p => (fst p, rest (per_replica limit (length (boxes s))) (snd p))) (boxes s).
Proof.
  intros s limit W C. unfold turn. destruct (serve_all _ _ _ _) as [[[bs snd] t] x] eqn:E. cbn [boxes].
  now apply serve_all_calm in E as [_ E]; [|apply per_pos | now apply calm_in].
Qed.
Lemma waiting_rest : forall per i bs, waiting i (map (fun p : nat * list msg => (fst p, rest per (snd p))) bs) = rest per (waiting i bs).
Proof.
  intros per i bs. induction bs as [|[k b] bs IH]; [destruct per; [symmetry; apply skipn_nil | reflexivity]|]. cbn [map fst snd waiting]. now destruct (k =? i).
Qed.
Lemma existsb_skipn : forall {A} (f : A -> bool) n l, existsb f l = false -> existsb f (skipn n l) = false.
Proof.
  intros A f n. induction n as [|n IH]; intros [|a l] H; try assumption. cbn [skipn]. apply IH. cbn in H. now apply orb_false_iff in H as [_ H].
Qed.
Lemma calm_turn : forall s limit, wf s -> calm s -> calm (turn s limit).
Proof.
  intros s limit W C i. rewrite turn_calm, waiting_rest by assumption. destruct (per_replica _ _); [|reflexivity]. cbn [rest]. apply existsb_skipn. apply C.
Qed.
Lemma rounded_near : forall l n, 1 <= n -> 2 * n * rounded l n <= 2 * l + n /\ 2 * l <= 2 * n * rounded l n + n.
Proof.
  intros l n N. unfold rounded. assert (M : l = n * (l / n) + l mod n) by (apply Nat.div_mod; lia).
  assert (B : l mod n < n) by (apply Nat.mod_upper_bound; lia). set (q := l / n) in *. set (r := l mod n) in *. clearbody q r.
  destruct (Nat.ltb_spec (2 * r) n); [nia|]. destruct (Nat.ltb_spec n (2 * r)); [nia|]. destruct (Nat.even q); nia.
Qed.
Lemma serve_max : forall c p b num i snd r snd' t x, num < p -> serve c (Some p) num i b snd = (r, snd', t, x) -> length t + num <= p.
Proof.
  intros c p b. induction b as [|m b IH]; intros num i snd r snd' t x L H; cbn [serve] in H; [injection H as <- <- <- <-; cbn; lia|].
  destruct (handle c snd m) as [snd1 w]. destruct (raised w); [injection H as <- <- <- <-; cbn; lia|]. cbn [full] in H.
  destruct (Nat.leb_spec p (S num)); [injection H as <- <- <- <-; cbn; lia|].
  destruct (serve c (Some p) (S num) i b snd1) as [[[r2 snd2] t2] x2] eqn:Hs. injection H as <- <- <- <-. apply IH in Hs; [|lia]. cbn [length]. lia.
Qed.
Lemma serve_all_max : forall c p bs snd bs' snd' t x, 1 <= p -> serve_all c (Some p) bs snd = (bs', snd', t, x) -> length t <= p * length bs.
Proof.
  intros c p bs. induction bs as [|[j b] bs IH]; intros snd bs' snd' t x P H; cbn [serve_all] in H; [injection H as <- <- <- <-; cbn; lia|].
  destruct (serve c (Some p) 0 j b snd) as [[[b1 snd1] t1] x1] eqn:Hs. apply serve_max in Hs; [|lia]. cbn [length]. destruct x1.
  - injection H as <- <- <- <-. nia.
  - destruct (serve_all c (Some p) bs snd1) as [[[r2 snd2] t2] x2] eqn:Hr. injection H as <- <- <- <-. apply IH in Hr; [|exact P]. rewrite app_length. nia.
Qed.

(** answers *)
Definition known (d : nat) (l : list (nat * nat)) : nat := length (filter (fun p => fst p =? d) l).
Lemma known_del : forall d e l, known d (del e l) = if e =? d then 0 else known d l.
Proof.
  intros d e l. unfold known, del. destruct (Nat.eqb_spec e d) as [->|N]; induction l as [|[a c] l IH]; try reflexivity; cbn [filter fst].
  - destruct (Nat.eqb_spec a d) as [->|M]; cbn [negb filter fst]; [exact IH|]. destruct (Nat.eqb_spec a d); [congruence | exact IH].
  - destruct (Nat.eqb_spec a e) as [->|M]; cbn [negb filter fst]; [destruct (Nat.eqb_spec e d); [congruence | exact IH]|].
    destruct (a =? d); cbn [length]; [now rewrite IH | exact IH].
Qed.
Lemma find_known : forall d l c, find d l = Some c -> 1 <= known d l /\ In (d, c) l.
Proof.
  intros d l c. unfold find, known. induction l as [|[a b] l IH]; [discriminate|]. cbn [List.find filter fst]. destruct (Nat.eqb_spec a d) as [->|]; cbn [length].
  - intros E. injection E as <-. split; [lia | now left].
  - intros E. destruct (IH E) as [A B]. split; [exact A | now right].
Qed.
Lemma find_del : forall d e l, d <> e -> find d (del e l) = find d l.
Proof.
  intros d e l N. unfold find, del. induction l as [|[a b] l IH]; [reflexivity|]. cbn [filter fst]. destruct (Nat.eqb_spec a e) as [->|]; cbn [negb List.find fst].
  - destruct (Nat.eqb_spec e d); [congruence | exact IH].
  - destruct (a =? d); [reflexivity | exact IH].
Qed.
Definition answers (d : nat) (t : list entry) : nat := length (filter (answer_to d) t).
Lemma answers_app : forall d a b, answers d (a ++ b) = answers d a + answers d b.
Proof. intros. unfold answers. now rewrite filter_app, app_length. Qed.
Definition from (snd : list (nat * nat)) (e : entry) : Prop := forall d c, e_msg e = Rej d -> e_out e = Answered c -> In (d, c) snd.
Definition first (d c : nat) (snd' : list (nat * nat)) (t : list entry) : Prop :=
  (find d snd' = Some c /\ Forall (fun e => e_msg e <> Rej d) t) \/ exists i, In (Entry i (Rej d) (Answered c)) t.
Lemma handle_snd : forall c snd i m snd1 w, handle c snd m = (snd1, w) ->
  (forall d, answers d [Entry i m w] + known d snd1 <= known d snd) /\ from snd (Entry i m w) /\ incl snd1 snd /\
  (forall d c, find d snd = Some c -> first d c snd1 [Entry i m w]).
Proof.
  intros c snd i m snd1 w H.
  assert (Triv : (forall e, m <> Rej e) -> snd1 = snd -> (forall d, answers d [Entry i m w] + known d snd1 <= known d snd) /\ from snd (Entry i m w) /\ incl snd1 snd /\
    (forall d c, find d snd = Some c -> first d c snd1 [Entry i m w])).
  { intros N ->. split; [|split; [|split]].
    - intros d. unfold answers. cbn [filter answer_to]. destruct m; try (cbn; lia). now destruct (N d0).
    - intros d c0 E. cbn in E. now destruct (N d).
    - apply incl_refl.
    - intros d c0 E. left. split; [exact E|]. constructor; [|constructor]. cbn [e_msg]. apply N. }
  destruct m as [x|v k|d|x|x|x]; cbn [handle] in H; try (apply Triv; [discriminate | congruence]). clear Triv.
  destruct (find d snd) as [c0|] eqn:F; injection H as <- <-.
  - destruct (find_known _ _ _ F) as [K I]. split; [|split; [|split]].
    + intros d'. rewrite known_del. unfold answers. cbn [filter answer_to]. destruct (Nat.eqb_spec d d') as [->|]; cbn [length]; lia.
    + intros d' c' E E'. cbn in E, E'. injection E as <-. injection E' as <-. exact I.
    + intros p Hp. unfold del in Hp. now apply filter_In in Hp as [Hp _].
    + intros d' c' F'. destruct (Nat.eq_dec d' d) as [->|N].
      * right. exists i. left. congruence.
      * left. rewrite find_del by exact N. split; [exact F'|]. constructor; [|constructor]. cbn [e_msg]. congruence.
  - split; [|split; [|split]].
    + intros d'. cbn. lia.
    + intros d' c' E E'. cbn in E'. discriminate.
    + apply incl_refl.
    + intros d' c' F'. left. split; [exact F'|]. constructor; [|constructor]. cbn [e_msg]. congruence.
Qed.
Definition fair (snd snd' : list (nat * nat)) (t : list entry) : Prop :=
  (forall d, answers d t + known d snd' <= known d snd) /\ Forall (from snd) t /\ incl snd' snd /\ (forall d c, find d snd = Some c -> first d c snd' t).
Lemma fair_nil : forall snd, fair snd snd [].
Proof. intros snd. split; [intros; cbn; lia|]. split; [constructor|]. split; [apply incl_refl|]. intros d c F. left. split; [exact F | constructor]. Qed.
Lemma fair_app : forall a b c t u, fair a b t -> fair b c u -> fair a c (t ++ u).
Proof.
  intros a b c t u (A1 & A2 & A3 & A4) (B1 & B2 & B3 & B4). split; [|split; [|split]].
  - intros d. rewrite answers_app. specialize (A1 d). specialize (B1 d). lia.
  - apply Forall_app. split; [exact A2|]. apply Forall_forall. intros e He. rewrite Forall_forall in B2. intros d x E E'. apply A3. now apply (B2 e He).
  - intros p Hp. now apply A3, B3.
  - intros d x F. destruct (A4 d x F) as [[F1 N1]|[i I1]].
    + destruct (B4 d x F1) as [[F2 N2]|[i I2]].
      * left. split; [exact F2|]. apply Forall_app. now split.
      * right. exists i. apply in_or_app. now right.
    + right. exists i. apply in_or_app. now left.
Qed.
Lemma handle_fair : forall c snd i m snd1 w, handle c snd m = (snd1, w) -> fair snd snd1 [Entry i m w].
Proof. intros c snd i m snd1 w H. destruct (handle_snd c snd i m snd1 w H) as (A & B & C & D). split; [exact A|]. split; [now constructor|]. now split. Qed.
Lemma serve_fair : forall c per b num i snd r snd' t x, serve c per num i b snd = (r, snd', t, x) -> fair snd snd' t.
Proof.
  intros c per b. induction b as [|m b IH]; intros num i snd r snd' t x H; cbn [serve] in H; [injection H as <- <- <- <-; apply fair_nil|].
  destruct (handle c snd m) as [snd1 w] eqn:Hd. apply (handle_fair c snd i) in Hd.
  destruct (raised w); [injection H as <- <- <- <-; exact Hd|]. destruct (full per (S num)); [injection H as <- <- <- <-; exact Hd|].
  destruct (serve c per (S num) i b snd1) as [[[r2 snd2] t2] x2] eqn:Hs. injection H as <- <- <- <-. apply (fair_app _ _ _ [Entry i m w] t2 Hd). exact (IH _ _ _ _ _ _ _ Hs).
Qed.
Lemma serve_all_fair : forall c per bs snd bs' snd' t x, serve_all c per bs snd = (bs', snd', t, x) -> fair snd snd' t.
Proof.
  intros c per bs. induction bs as [|[j b] bs IH]; intros snd bs' snd' t x H; cbn [serve_all] in H; [injection H as <- <- <- <-; apply fair_nil|].
  destruct (serve c per 0 j b snd) as [[[b1 snd1] t1] x1] eqn:Hs. apply serve_fair in Hs. destruct x1; [injection H as <- <- <- <-; exact Hs|].
  destruct (serve_all c per bs snd1) as [[[r2 snd2] t2] x2] eqn:Hr. injection H as <- <- <- <-. apply (fair_app _ _ _ _ _ Hs). exact (IH _ _ _ _ _ Hr).
Qed.
Lemma turn_fair : forall s limit, exists t, trace (turn s limit) = trace s ++ t /\ fair (senders s) (senders (turn s limit)) t.
Proof. intros s limit. unfold turn. destruct (serve_all _ _ _ _) as [[[bs snd] t] x] eqn:E. exists t. split; [reflexivity|]. exact (serve_all_fair _ _ _ _ _ _ _ _ E). Qed.
Lemma forced_none : forall c d bs, answers d (flat_map (take c) bs) = 0.
Proof.
  intros c d bs. induction bs as [|[j b] bs IH]; [reflexivity|]. cbn [flat_map]. rewrite answers_app, IH. unfold take, answers. cbn [fst snd].
  rewrite Nat.add_0_r. induction b as [|m b IHb]; [reflexivity|]. cbn [filter]. destruct m; cbn [is_ord map filter answer_to]; exact IHb.
Qed.
Lemma answers_run : forall d h s, answers d (trace (run s h)) + known d (senders (run s h)) <= answers d (trace s) + known d (senders s) + length (filter (asks d) h).
Proof.
  intros d h. induction h as [|o h IH]; intros s; [cbn; lia|]. cbn [run fold_left]. fold (run (step s o) h). specialize (IH (step s o)).
  assert (E : answers d (trace (step s o)) + known d (senders (step s o)) + length (filter (asks d) h) <= answers d (trace s) + known d (senders s) + length (filter (asks d) (o :: h))); [|lia].
  destruct o as [j m|e c|e|limit| |b|j|j]; cbn [step trace senders filter asks]; try lia.
  - assert (K : known d ((e, c) :: del e (senders s)) = if e =? d then 1 else known d (senders s)).
    { unfold known at 1. cbn [filter fst]. fold (known d (del e (senders s))). pose proof (known_del d e (senders s)) as K. unfold known in K at 1.
      destruct (e =? d); cbn [length]; rewrite K; reflexivity. }
    rewrite K. destruct (e =? d); cbn [length]; lia.
  - rewrite known_del. destruct (e =? d); lia.
  - destruct (turn_fair s limit) as (t & -> & F & _). rewrite answers_app. specialize (F d). lia.
  - unfold force. cbn [trace senders]. rewrite answers_app, forced_none. lia.
  - destruct (has j (boxes s)); cbn [trace senders]; lia.
Qed.
Lemma source_run : forall h s, (forall d c, In (d, c) (senders (run s h)) -> In (d, c) (senders s) \/ In (Client d c) h) /\
  (forall i d c, In (Entry i (Rej d) (Answered c)) (trace (run s h)) -> In (Entry i (Rej d) (Answered c)) (trace s) \/ In (d, c) (senders s) \/ In (Client d c) h).
Proof.
  intros h. induction h as [|o h IH]; intros s; [cbn; auto|]. cbn [run fold_left]. fold (run (step s o) h). destruct (IH (step s o)) as [I1 I2].
  assert (P : (forall d c, In (d, c) (senders (step s o)) -> In (d, c) (senders s) \/ Client d c = o) /\
    (forall i d c, In (Entry i (Rej d) (Answered c)) (trace (step s o)) -> In (Entry i (Rej d) (Answered c)) (trace s) \/ In (d, c) (senders s))).
  { destruct o as [j m|e x|e|limit| |b|j|j]; cbn [step trace senders]; try (split; intros; auto; fail).
    - split; [|auto]. intros d c [E|H]; [right; congruence|]. left. unfold del in H. now apply filter_In in H as [H _].
    - split; [|auto]. intros d c H. left. unfold del in H. now apply filter_In in H as [H _].
    - destruct (turn_fair s limit) as (t & -> & _ & F & G & _). split; [intros d c H; left; now apply G|].
      intros i d c H. apply in_app_or in H as [H|H]; [now left|]. right. rewrite Forall_forall in F. now apply (F _ H d c).
    - split; [auto|]. intros i d c H. unfold force in H. cbn [trace] in H. apply in_app_or in H as [H|H]; [now left|].
      apply in_flat_map in H as (p & _ & H). unfold take in H. apply in_map_iff in H as (m & E & H). now destruct (can s).
    - destruct (has j (boxes s)); cbn [trace senders]; auto. }
  destruct P as [P1 P2]. split.
  - intros d c H. destruct (I1 d c H) as [H1|H1]; [|right; now right]. destruct (P1 d c H1) as [H2|<-]; [now left | right; now left].
  - intros i d c H. destruct (I2 i d c H) as [H1|[H1|H1]].
    + destruct (P2 i d c H1) as [H2|H2]; auto.
    + destruct (P1 d c H1) as [H2|<-]; [now auto | right; right; now left].
    + right. right. now right.
Qed.
Lemma find_quiet : forall d c h s, forallb (quiet d) h = true -> find d (senders s) = Some c -> find d (senders (run s h)) = Some c.
Proof.
  intros d c h. induction h as [|o h IH]; intros s Q F; [exact F|]. cbn [forallb] in Q. apply andb_true_iff in Q as [Q1 Q2]. cbn [run fold_left]. apply IH; [exact Q2|].
  destruct o as [j m|e x|e|limit| |b|j|j]; cbn [step senders quiet] in *; try exact F; try discriminate.
  - apply negb_true_iff, Nat.eqb_neq in Q1. unfold find. cbn [List.find fst]. destruct (Nat.eqb_spec e d); [congruence|].
    change (find d (del e (senders s)) = Some c). rewrite find_del by congruence. exact F.
  - apply negb_true_iff, Nat.eqb_neq in Q1. rewrite find_del by congruence. exact F.
  - now destruct (has j (boxes s)).
Qed.
