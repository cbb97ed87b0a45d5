From Coq Require Import List Arith Bool Lia.
From Verif Require Import Observer_Model Observer_Spec.
Import ListNotations.

Lemma batch_eqb_eq : forall a b, batch_eqb a b = true <-> a = b.
Proof.
  intros [a1 a2 a3 a4] [b1 b2 b3 b4]. unfold batch_eqb. cbn. rewrite !andb_true_iff, !Nat.eqb_eq. split; [intros (((-> & ->) & ->) & ->); reflexivity | intros E; injection E as -> -> -> ->; auto].
Qed.
Lemma get_set : forall {V} k k' (v : V) m, get k (set k' v m) = if k' =? k then Some v else get k m.
Proof.
  intros V k k' v m. induction m as [|[a w] m IH]; cbn; [reflexivity|]. destruct (Nat.eqb_spec a k') as [->|NE]; cbn.
  - destruct (k' =? k); reflexivity.
  - rewrite IH. destruct (Nat.eqb_spec a k) as [->|_]; [|reflexivity]. destruct (Nat.eqb_spec k' k) as [E|_]; [congruence|reflexivity].
Qed.
Lemma get_del : forall {V} k k' (m : list (nat * V)), get k (del k' m) = if k' =? k then None else get k m.
Proof.
  intros V k k' m. unfold del. induction m as [|[a w] m IH]; cbn; [destruct (k' =? k); reflexivity|]. destruct (Nat.eqb_spec a k') as [->|NE]; cbn.
  - rewrite IH. destruct (k' =? k); reflexivity.
  - rewrite IH. destruct (Nat.eqb_spec a k) as [->|_]; [|reflexivity]. destruct (Nat.eqb_spec k' k) as [E|_]; [congruence|reflexivity].
Qed.
Lemma set_In : forall {V} k (v : V) m x w, In (x, w) (set k v m) -> (x = k /\ w = v) \/ (x <> k /\ In (x, w) m) \/ In (x, w) m.
Proof.
  intros V k v m x w. induction m as [|[a u] m IH]; cbn; [intros [E|[]]; injection E as <- <-; auto|]. destruct (Nat.eqb_spec a k) as [->|NE]; cbn.
  - intros [E|I]; [injection E as <- <-; auto | auto].
  - intros [E|I]; [injection E as <- <-; auto | destruct (IH I) as [?|[?|?]]; tauto].
Qed.
Lemma set_keys : forall {V} k (v : V) m x, In x (map fst (set k v m)) <-> x = k \/ In x (map fst m).
Proof.
  intros V k v m x. induction m as [|[a u] m IH]; cbn; [intuition|]. destruct (Nat.eqb_spec a k) as [->|NE]; cbn; [intuition|]. rewrite IH. intuition.
Qed.
Lemma set_nodup : forall {V} k (v : V) m, NoDup (map fst m) -> NoDup (map fst (set k v m)).
Proof.
  intros V k v m. induction m as [|[a u] m IH]; cbn; intros N; [constructor; [intros []|constructor]|]. inversion N as [|? ? N1 N2]; subst. destruct (Nat.eqb_spec a k) as [->|NE]; cbn.
  - constructor; assumption.
  - constructor; [|exact (IH N2)]. rewrite set_keys. intros [E|I]; [congruence | exact (N1 I)].
Qed.
Lemma push_In : forall x y l, In x (heappush y l) <-> x = y \/ In x l.
Proof. intros x y l. induction l as [|z l IH]; cbn; [intuition|]. destruct (y <=? z); cbn; [intuition|]. rewrite IH. intuition. Qed.
Inductive sorted : list nat -> Prop := sorted_nil : sorted [] | sorted_cons x l : (forall y, In y l -> x < y) -> sorted l -> sorted (x :: l).
Lemma push_sorted : forall x l, sorted l -> ~ In x l -> sorted (heappush x l).
Proof.
  intros x l. induction l as [|y l IH]; cbn; intros S N; [constructor; [intros z []|constructor]|]. inversion S as [|? ? S1 S2]; subst. destruct (Nat.leb_spec x y) as [L|G].
  - constructor; [|exact S]. intros z [<-|Z]; [destruct (Nat.eq_dec x y) as [->|]; [destruct N; left; reflexivity|lia] | specialize (S1 z Z); lia].
  - constructor; [|apply IH; [exact S2 | intros I; apply N; right; exact I]]. intros z Z. apply push_In in Z. destruct Z as [->|Z]; [exact G | exact (S1 z Z)].
Qed.
Lemma most_common_In : forall m q, 1 <= q -> q <= most_common m -> exists x b, In (x, b) m /\ q <= count b m.
Proof.
  intros m q Q. unfold most_common.
  assert (G : forall l : list (node * batch), q <= fold_right Nat.max 0 (map (fun p => count (snd p) m) l) -> exists x b, In (x, b) l /\ q <= count b m).
  { induction l as [|[x b] l IH]; cbn; intros H; [lia|]. destruct (le_lt_dec q (count b m)) as [L|L]; [exists x, b; auto|]. destruct IH as (y & c & I & C); [lia|]. exists y, c. auto. }
  apply G.
Qed.
Lemma most_common_ge : forall m x b, In (x, b) m -> count b m <= most_common m.
Proof.
  intros m x b. unfold most_common.
  assert (G : forall l : list (node * batch), In (x, b) l -> count b m <= fold_right Nat.max 0 (map (fun p => count (snd p) m) l)).
  { induction l as [|p l IH]; cbn; [intros []|]. intros [->|I]; cbn; [lia|]. specialize (IH I). lia. }
  apply G.
Qed.
Lemma map_fst_filter_nodup : forall {V} (f : nat * V -> bool) m, NoDup (map fst m) -> NoDup (map fst (filter f m)).
Proof.
  intros V f m. induction m as [|p m IH]; cbn; intros N; [constructor|]. inversion N as [|? ? N1 N2]; subst. destruct (f p); cbn; [|exact (IH N2)].
  constructor; [|exact (IH N2)]. intros I. apply N1. apply in_map_iff in I. destruct I as (q & E & I). apply filter_In in I. rewrite <- E. apply in_map. exact (proj1 I).
Qed.

Section P.
  Variable quorum : nat.
  Notation run := (run quorum). Notation apply_data := (apply_data quorum). Notation process_stashed := (process_stashed quorum). Notation can_apply := (can_apply quorum).

  (** ** What is stored was sent *)
  Definition stored (ms : list (batch * node)) (o : obs) : Prop :=
    forall s m, get s (o_batches o) = Some m -> NoDup (map fst m) /\ m <> [] /\ forall x b, In (x, b) m -> b_start b = s /\ In (b, x) ms.
  Definition witnessed (ms : list (batch * node)) (b : batch) : Prop :=
    (exists x, In (b, x) ms) /\ exists c, b_start c = b_start b /\ sent_by quorum ms c.
  Definition good (ms : list (batch * node)) (o : obs) : Prop :=
    stored ms o /\ (forall b, In b (o_applied o) -> witnessed ms b) /\
    match rev (o_applied o) with [] => o_last o = 0 | b :: _ => o_last o = b_end b end /\
    ((forall b x, In (b, x) ms -> b_end b <> 0) -> follow (o_applied o)).

  Lemma stored_more : forall ms p o, stored ms o -> stored (ms ++ [p]) o.
  Proof. intros ms p o S s m G. destruct (S s m G) as (A & B & C). split; [exact A|]. split; [exact B|]. intros x b I. destruct (C x b I). split; [assumption|apply in_or_app; left; assumption]. Qed.
  Lemma sent_more : forall k ms p b, sent_by k ms b -> sent_by k (ms ++ [p]) b.
  Proof. intros k ms p b (ss & N & L & I). exists ss. split; [exact N|]. split; [exact L|]. intros s S. apply in_or_app. left. exact (I s S). Qed.
  Lemma good_more : forall ms p o, good ms o -> good (ms ++ [p]) o.
  Proof.
    intros ms p o (S & W & L & F). split; [exact (stored_more ms p o S)|]. split.
    - intros b B. destruct (W b B) as ((x & X) & c & E & SB). split; [exists x; apply in_or_app; left; exact X|]. exists c. split; [exact E|]. exact (sent_more _ _ _ _ SB).
    - split; [exact L|]. intros H. apply F. intros b x I. apply (H b x). apply in_or_app. left. exact I.
  Qed.
  Lemma add_stored : forall ms o b x, stored ms o -> In (b, x) ms -> stored ms (add_batch o b x).
  Proof.
    intros ms o b x S I s m G. unfold add_batch in G. destruct (get (b_start b) (o_batches o)) as [m0|] eqn:G0; cbn [o_batches] in G; rewrite get_set in G; (destruct (Nat.eqb_spec (b_start b) s) as [E|NE]; [injection G as <-|exact (S s m G)]).
    - destruct (S _ _ G0) as (A & B & C). split; [exact (set_nodup x b m0 A)|]. split; [destruct m0 as [|[y c] m0]; cbn; [discriminate|destruct (y =? x); discriminate]|].
      intros y c Y. apply set_In in Y. destruct Y as [[-> ->]|[[_ Y]|Y]]; [auto | |]; destruct (C y c Y); split; congruence.
    - split; [constructor; [intros []|constructor]|]. split; [discriminate|]. intros y c [Y|[]]. injection Y as <- <-. auto.
  Qed.
  Lemma add_good : forall ms o b x, good ms o -> In (b, x) ms -> good ms (add_batch o b x).
  Proof.
    intros ms o b x (S & W & L & F) I. split; [exact (add_stored ms o b x S I)|]. unfold add_batch. destruct (get (b_start b) (o_batches o)); cbn; auto.
  Qed.
  Lemma can_apply_quorum : forall ms o b, 1 <= quorum -> stored ms o -> can_apply o b = Some true -> exists c, b_start c = b_start b /\ sent_by quorum ms c.
  Proof.
    intros ms o b Q S C. unfold Observer_Model.can_apply in C. destruct (if o_last o =? 0 then hd_error (o_heap o) else Some (o_last o + 1)) as [next|]; [|discriminate].
    destruct (negb (b_start b =? next)); [discriminate|]. destruct (get (b_start b) (o_batches o)) as [m|] eqn:G; [|discriminate]. injection C as C. apply andb_true_iff in C. destruct C as [_ C]. apply Nat.leb_le in C.
    destruct (most_common_In m quorum Q C) as (x & c & I & L). destruct (S _ _ G) as (A & _ & D). exists c. split; [exact (proj1 (D x c I))|].
    exists (map fst (filter (fun p => batch_eqb c (snd p)) m)). split; [apply map_fst_filter_nodup; exact A|]. split; [rewrite map_length; exact L|].
    intros y Y. apply in_map_iff in Y. destruct Y as ((z & w) & E & Y). cbn in E. subst z. apply filter_In in Y. destruct Y as [Y E]. cbn in E. apply batch_eqb_eq in E. subst w. exact (proj2 (D y c Y)).
  Qed.
  Lemma can_apply_next : forall o b, can_apply o b = Some true -> o_last o <> 0 -> b_start b = o_last o + 1.
  Proof.
    intros o b C L. unfold Observer_Model.can_apply in C. destruct (Nat.eqb_spec (o_last o) 0) as [E|_]; [congruence|]. destruct (Nat.eqb_spec (b_start b) (o_last o + 1)) as [E|_]; [exact E|discriminate].
  Qed.
  Lemma follow_snoc : forall l b, follow l -> match rev l with [] => True | c :: _ => b_start b = b_end c + 1 end -> follow (l ++ [b]).
  Proof.
    induction l as [|c l IH]; intros b F H; [exact Logic.I|]. destruct l as [|d l]; cbn [app].
    - cbn in *. auto.
    - destruct F as [F1 F2]. split; [exact F1|]. apply (IH b F2). cbn [rev] in *. destruct (rev l ++ [d]) as [|e r] eqn:E; [destruct (rev l); discriminate|]. exact H.
  Qed.
  Lemma apply_good : forall ms o b o', 1 <= quorum -> good ms o -> (exists x, In (b, x) ms) -> can_apply o b = Some true -> do_apply_data o b = Some o' -> good ms o'.
  Proof.
    intros ms o b o' Q (S & W & L & F) X C D. unfold do_apply_data in D. destruct (get (b_start b) (o_batches o)); [|discriminate]. destruct (o_heap o) as [|h0 h]; [discriminate|]. injection D as <-. split.
    - intros s m G. cbn in G. rewrite get_del in G. destruct (b_start b =? s); [discriminate|exact (S s m G)].
    - cbn [o_applied o_last]. split; [|split].
      + intros c I. apply in_app_or in I. destruct I as [I|[<-|[]]]; [exact (W c I)|]. split; [exact X|]. destruct (can_apply_quorum ms o b Q S C) as (c & E & SB). exists c. auto.
      + rewrite rev_app_distr. reflexivity.
      + intros H. apply follow_snoc; [exact (F H)|]. destruct (rev (o_applied o)) as [|c r] eqn:R; [exact Logic.I|]. assert (IC : In c (o_applied o)) by (apply in_rev; rewrite R; left; reflexivity).
        destruct (W c IC) as ((x & IX) & _). rewrite <- L. apply can_apply_next; [exact C|]. rewrite L. exact (H c x IX).
  Qed.
  Lemma stashed_good : forall fuel ms o o', 1 <= quorum -> good ms o -> process_stashed fuel o = Some o' -> good ms o'.
  Proof.
    induction fuel as [|fuel IH]; intros ms o o' Q G P; cbn in P.
    - destruct (o_batches o) as [|p l]; [injection P as <-; exact G|]. destruct (o_heap o) as [|h hs]; [injection P as <-; exact G|]. destruct (get h (p :: l)) as [[|[x b] m]|]; try discriminate.
      destruct (can_apply o b) as [[|]|]; [|injection P as <-; exact G|discriminate]. destruct (do_apply_data o b); discriminate.
    - assert (GG := G). destruct G as (S & _). destruct (o_batches o) as [|p l] eqn:OB; [injection P as <-; exact GG|]. destruct (o_heap o) as [|h hs]; [injection P as <-; exact GG|].
      destruct (get h (p :: l)) as [[|[x b] m]|] eqn:GH; try discriminate. rewrite <- OB in GH.
      destruct (can_apply o b) as [[|]|] eqn:C; [|injection P as <-; exact GG|discriminate]. destruct (do_apply_data o b) as [o1|] eqn:D; [|discriminate].
      apply (IH ms o1 o' Q); [|exact P]. apply (apply_good ms o b o1 Q GG); [|exact C|exact D]. exists x. exact (proj2 (proj2 (proj2 (S _ _ GH)) x b (or_introl eq_refl))).
  Qed.
  Lemma step_good : forall ms o b x o', 1 <= quorum -> good ms o -> apply_data o b x = Some o' -> good (ms ++ [(b, x)]) o'.
  Proof.
    intros ms o b x o' Q G A. apply (good_more ms (b, x)) in G. unfold Observer_Model.apply_data in A. destruct (can_process o b); cbn [negb] in A; [|injection A as <-; exact G].
    assert (I : In (b, x) (ms ++ [(b, x)])) by (apply in_or_app; right; left; reflexivity). pose proof (add_good _ o b x G I) as G1.
    destruct (can_apply (add_batch o b x) b) as [[|]|] eqn:C; [|injection A as <-; exact G1|discriminate]. destruct (do_apply_data (add_batch o b x) b) as [o2|] eqn:D; [|discriminate].
    apply (stashed_good _ _ _ _ Q (apply_good _ _ _ _ Q G1 (ex_intro _ x I) C D) A).
  Qed.
  Lemma run_snoc : forall ms p o o', run o (ms ++ [p]) = Some o' <-> exists o1, run o ms = Some o1 /\ apply_data o1 (fst p) (snd p) = Some o'.
  Proof.
    induction ms as [|[b x] ms IH]; intros [c y] o o'; cbn.
    - split; [intros R; exists o; split; [reflexivity|destruct (apply_data o c y); [exact R|discriminate]] | intros (o1 & E & A); injection E as <-; rewrite A; reflexivity].
    - destruct (apply_data o b x) as [o2|]; [apply (IH (c, y))|]. split; [discriminate | intros (o1 & E & _); discriminate].
  Qed.
  Lemma run_good : forall ms o, 1 <= quorum -> run init ms = Some o -> good ms o.
  Proof.
    induction ms as [|[b x] ms IH] using rev_ind; intros o Q R.
    - cbn in R. injection R as <-. split; [intros s m G; discriminate|]. split; [intros b []|]. split; [reflexivity|]. intros _. exact Logic.I.
    - apply run_snoc in R. destruct R as (o1 & R & A). exact (step_good ms o1 b x o Q (IH o1 Q R) A).
  Qed.

  (** ** One history: no exception, and nothing is left waiting *)
  Definition tidy (ms : list (batch * node)) (o : obs) : Prop :=
    stored ms o /\ sorted (o_heap o) /\ (forall s, In s (o_heap o) <-> get s (o_batches o) <> None) /\
    (forall s, In s (o_heap o) -> o_last o < s).
  Lemma tidy_head : forall ms o b, numbered ms -> tidy ms o -> can_apply o b = Some true -> exists h, o_heap o = b_start b :: h.
  Proof.
    intros ms o b NU (S & SO & K & LT) C. unfold Observer_Model.can_apply in C. destruct (Nat.eqb_spec (o_last o) 0) as [E|NE].
    - destruct (o_heap o) as [|h0 h]; [discriminate|]. cbn in C. destruct (Nat.eqb_spec (b_start b) h0) as [->|_]; [exists h; reflexivity|discriminate].
    - destruct (Nat.eqb_spec (b_start b) (o_last o + 1)) as [E|_]; [|discriminate]. cbn in C. destruct (get (b_start b) (o_batches o)) as [m|] eqn:G; [|discriminate].
      assert (IN : In (b_start b) (o_heap o)) by (apply K; congruence). destruct (o_heap o) as [|h0 h] eqn:H; [destruct IN|]. inversion SO as [|? ? SO1 SO2]; subst.
      destruct IN as [->|IN]; [exists h; reflexivity|]. specialize (SO1 _ IN). specialize (LT h0 (or_introl eq_refl)). lia.
  Qed.
  Lemma tidy_apply : forall ms o b, numbered ms -> one_history ms -> tidy ms o -> (exists x, In (b, x) ms) -> can_apply o b = Some true ->
    exists o', do_apply_data o b = Some o' /\ tidy ms o' /\ length (o_heap o) = S (length (o_heap o')).
  Proof.
    intros ms o b NU OH T (x & X) C. destruct (tidy_head ms o b NU T C) as (h & H). destruct T as (S & SO & K & LT).
    assert (IN : In (b_start b) (o_heap o)) by (rewrite H; left; reflexivity). apply K in IN. unfold do_apply_data. destruct (get (b_start b) (o_batches o)) as [m|]; [|congruence]. rewrite H in *.
    eexists. split; [reflexivity|]. cbn. inversion SO as [|? ? SO1 SO2]; subst. split; [|reflexivity]. split; [|split; [exact SO2|split]].
    - intros s m' G. cbn in G. rewrite get_del in G. destruct (b_start b =? s); [discriminate|exact (S s m' G)].
    - intros s. cbn. rewrite get_del. split.
      + intros I. destruct (Nat.eqb_spec (b_start b) s) as [<-|_]; [specialize (SO1 _ I); lia|]. apply K. right. exact I.
      + destruct (Nat.eqb_spec (b_start b) s) as [E|NE]; intros G; [congruence|]. apply K in G. destruct G as [G|G]; [congruence|exact G].
    - intros s I. specialize (SO1 s I). assert (G : get s (o_batches o) <> None) by (apply K; right; exact I). destruct (get s (o_batches o)) as [m'|] eqn:GS; [|congruence].
      destruct (S _ _ GS) as (_ & NN & D). destruct m' as [|[y c] m']; [congruence|]. destruct (D y c (or_introl eq_refl)) as [E IC]. rewrite <- E in SO1 |- *. exact (proj2 (OH b x c y X IC) SO1).
  Qed.
  (** what could be applied next is not there *)
  Definition waiting (o : obs) : Prop := match (if o_last o =? 0 then hd_error (o_heap o) else Some (o_last o + 1)) with
    | None => True | Some next => match get next (o_batches o) with None => True | Some m => ~ (quorum <= length m /\ quorum <= most_common m) end end.
  Lemma cannot_apply : forall ms o b, tidy ms o -> get (b_start b) (o_batches o) <> None -> (o_last o <> 0 -> hd_error (o_heap o) = Some (b_start b) \/ b_start b = o_last o + 1) ->
    (o_last o = 0 -> hd_error (o_heap o) = Some (b_start b) \/ ~ hd_error (o_heap o) = Some (b_start b) /\ waiting o) -> can_apply o b = Some false -> waiting o.
  Proof.
    intros ms o b (S & SO & K & LT) G N1 N0 C. unfold waiting. unfold Observer_Model.can_apply in C. destruct (Nat.eqb_spec (o_last o) 0) as [E|NE].
    - destruct (N0 E) as [H|[_ W]]; [|unfold waiting in W; rewrite E in W; exact W]. rewrite H in *. rewrite Nat.eqb_refl in C. cbn in C. destruct (get (b_start b) (o_batches o)) as [m|]; [|exact Logic.I]. injection C as C. intros [X Y].
      apply Nat.leb_le in X, Y. rewrite X, Y in C. discriminate.
    - destruct (Nat.eqb_spec (b_start b) (o_last o + 1)) as [E|NE'].
      + rewrite <- E. cbn in C. destruct (get (b_start b) (o_batches o)) as [m|]; [|exact Logic.I]. injection C as C. intros [X Y]. apply Nat.leb_le in X, Y. rewrite X, Y in C. discriminate.
      + destruct (N1 NE) as [H|H]; [|congruence]. destruct (o_heap o) as [|h0 h] eqn:OH; [discriminate|]. cbn in H. injection H as ->. destruct (get (o_last o + 1) (o_batches o)) as [m|] eqn:GG; [|exact Logic.I].
        exfalso. assert (IN : In (o_last o + 1) (b_start b :: h)) by (apply K; congruence). inversion SO as [|? ? SO1 SO2]; subst. specialize (LT (b_start b) (or_introl eq_refl)). destruct IN as [IN|IN]; [congruence|]. specialize (SO1 _ IN). lia.
  Qed.
  Lemma can_apply_total : forall ms o b, tidy ms o -> get (b_start b) (o_batches o) <> None -> can_apply o b <> None.
  Proof.
    intros ms o b (S & SO & K & LT) G. unfold Observer_Model.can_apply. assert (IN : In (b_start b) (o_heap o)) by (apply K; exact G). destruct (o_last o =? 0).
    - destruct (o_heap o) as [|h0 h]; [destruct IN|]. cbn. destruct (negb (b_start b =? h0)); [discriminate|]. destruct (get (b_start b) (o_batches o)); [discriminate|congruence].
    - destruct (negb (b_start b =? o_last o + 1)); [discriminate|]. destruct (get (b_start b) (o_batches o)); [discriminate|congruence].
  Qed.
  Lemma tidy_stashed : forall fuel ms o, numbered ms -> one_history ms -> tidy ms o -> length (o_heap o) <= fuel -> exists o', process_stashed fuel o = Some o' /\ tidy ms o' /\ waiting o'.
  Proof.
    induction fuel as [|fuel IH]; intros ms o NU OH T L.
    - assert (H : o_heap o = []) by (destruct (o_heap o); [reflexivity|cbn in L; lia]). exists o. cbn. rewrite H. destruct (o_batches o) as [|p l] eqn:OB; (split; [reflexivity|]); (split; [exact T|]).
      + unfold waiting. rewrite OB. destruct (if o_last o =? 0 then _ else _); exact Logic.I.
      + exfalso. destruct T as (S & SO & K & LT). rewrite H in K. destruct p as [k m]. apply (K k). rewrite OB. cbn. rewrite Nat.eqb_refl. discriminate.
    - cbn. assert (TT := T). destruct T as (S & SO & K & LT). destruct (o_batches o) as [|p l] eqn:OB.
      { exists o. split; [reflexivity|]. split; [exact TT|]. unfold waiting. rewrite OB. destruct (if o_last o =? 0 then _ else _); exact Logic.I. }
      destruct (o_heap o) as [|h hs] eqn:H.
      { exfalso. destruct p as [k m]. apply (K k). cbn. rewrite Nat.eqb_refl. discriminate. }
      assert (G : get h (p :: l) <> None) by (apply K; left; reflexivity). rewrite <- OB in *. destruct (get h (o_batches o)) as [m|] eqn:GH; [|congruence].
      destruct (S _ _ GH) as (_ & NN & D). destruct m as [|[x b] m]; [congruence|]. destruct (D x b (or_introl eq_refl)) as [E IB]. subst h.
      pose proof (can_apply_total ms o b TT) as CT. rewrite GH in CT. specialize (CT G). destruct (can_apply o b) as [[|]|] eqn:C; [| |congruence].
      + destruct (tidy_apply ms o b NU OH TT (ex_intro _ x IB) C) as (o1 & D1 & T1 & L1). rewrite D1. apply (IH ms o1 NU OH T1). rewrite H in L1. cbn in L, L1. lia.
      + exists o. split; [reflexivity|]. split; [exact TT|]. apply (cannot_apply ms o b TT); [rewrite GH; discriminate | | |exact C]; intros _; left; rewrite H; reflexivity.
  Qed.
  Lemma tidy_add : forall ms o b x, tidy ms o -> In (b, x) ms -> o_last o < b_start b -> tidy ms (add_batch o b x).
  Proof.
    intros ms o b x (S & SO & K & LT) I L. split; [exact (add_stored ms o b x S I)|]. unfold add_batch. destruct (get (b_start b) (o_batches o)) as [m|] eqn:G; cbn.
    - split; [exact SO|]. split; [|exact LT]. intros s. rewrite get_set. destruct (Nat.eqb_spec (b_start b) s) as [<-|_]; [|apply K]. split; [discriminate|]. intros _. apply K. congruence.
    - assert (NI : ~ In (b_start b) (o_heap o)) by (rewrite K; congruence). split; [exact (push_sorted _ _ SO NI)|]. split.
      + intros s. rewrite push_In, get_set, K. destruct (Nat.eqb_spec (b_start b) s) as [<-|NE]; [split; [discriminate|auto]|]. split; [intros [E|X]; [congruence|exact X] | auto].
      + intros s X. apply push_In in X. destruct X as [->|X]; [exact L | exact (LT s X)].
  Qed.
  Lemma tidy_more : forall ms p o, tidy ms o -> tidy (ms ++ [p]) o.
  Proof. intros ms p o (S & X). split; [exact (stored_more ms p o S) | exact X]. Qed.

  (** the senders of a batch above the last one applied are all noted *)
  Definition noted (ms : list (batch * node)) (o : obs) : Prop :=
    forall b x, In (b, x) ms -> o_last o < b_start b -> exists m c, get (b_start b) (o_batches o) = Some m /\ In (x, c) m.
  Lemma noted_add : forall ms o b x, noted ms o -> noted (ms ++ [(b, x)]) (add_batch o b x).
  Proof.
    intros ms o b x N c y I L. assert (LL : o_last o < b_start c) by (unfold add_batch in L; destruct (get (b_start b) (o_batches o)); exact L).
    assert (KEEP : forall (z : node) (d : batch) m, In (z, d) m -> exists e, In (z, e) (set x b m)).
    { intros z d m. induction m as [|[a u] m IH]; cbn; [intros []|]. destruct (Nat.eqb_spec a x) as [->|NE]; cbn; intros [E|J]; [injection E as <- <-; eauto | eauto | injection E as <- <-; eauto | destruct (IH J) as (e & X); eauto]. }
    assert (NEW : forall m : list (node * batch), In (x, b) (set x b m)).
    { induction m as [|[a u] m IH]; cbn; [auto|]. destruct (a =? x); cbn; auto. }
    unfold add_batch. apply in_app_or in I. destruct I as [I|[I|[]]].
    - destruct (N c y I LL) as (m & d & G & J). destruct (get (b_start b) (o_batches o)) as [m0|] eqn:G0; cbn; rewrite get_set; destruct (Nat.eqb_spec (b_start b) (b_start c)) as [E|NE].
      + assert (m0 = m) by congruence. subst m0. destruct (KEEP y d m J) as (e & X). eauto.
      + eauto.
      + congruence.
      + eauto.
    - injection I as <- <-. destruct (get (b_start b) (o_batches o)) as [m0|] eqn:G0; cbn; rewrite get_set, Nat.eqb_refl; [exists (set x b m0), b; auto | exists [(x, b)], b; split; [reflexivity|left; reflexivity]].
  Qed.
  Lemma noted_apply : forall ms o b o', noted ms o -> do_apply_data o b = Some o' -> o_last o <= b_end b -> b_start b <= b_end b -> noted ms o'.
  Proof.
    intros ms o b o' N D LE SE c y I L. unfold do_apply_data in D. destruct (get (b_start b) (o_batches o)); [|discriminate]. destruct (o_heap o); [discriminate|]. injection D as <-. cbn in *.
    destruct (N c y I) as (m & d & G & J); [lia|]. exists m, d. rewrite get_del. destruct (Nat.eqb_spec (b_start b) (b_start c)) as [E|_]; [lia|auto].
  Qed.
  Lemma noted_stashed : forall fuel ms o o', numbered ms -> one_history ms -> tidy ms o -> noted ms o -> process_stashed fuel o = Some o' -> noted ms o'.
  Proof.
    induction fuel as [|fuel IH]; intros ms o o' NU OH T N P; cbn in P; assert (TT := T); destruct T as (S & SO & K & LT).
    - destruct (o_batches o) as [|p l]; [injection P as <-; exact N|]. destruct (o_heap o) as [|h hs]; [injection P as <-; exact N|]. destruct (get h (p :: l)) as [[|[x b] m]|]; try discriminate.
      destruct (can_apply o b) as [[|]|]; [|injection P as <-; exact N|discriminate]. destruct (do_apply_data o b); discriminate.
    - destruct (o_batches o) as [|p l] eqn:OB; [injection P as <-; exact N|]. destruct (o_heap o) as [|h hs] eqn:H; [injection P as <-; exact N|].
      destruct (get h (p :: l)) as [[|[x b] m]|] eqn:GH; try discriminate. rewrite <- OB in GH. destruct (S _ _ GH) as (_ & _ & D). destruct (D x b (or_introl eq_refl)) as [E IB].
      destruct (can_apply o b) as [[|]|] eqn:C; [|injection P as <-; exact N|discriminate].
      destruct (tidy_apply ms o b NU OH TT (ex_intro _ x IB) C) as (o1 & D1 & T1 & _). rewrite D1 in P. apply (IH ms o1 o' NU OH T1); [|exact P]. specialize (NU b x IB). specialize (LT h (or_introl eq_refl)). apply (noted_apply ms o b o1 N D1); lia.
  Qed.

  Definition clean (ms : list (batch * node)) (o : obs) : Prop := tidy ms o /\ waiting o /\ noted ms o.
  Lemma step_clean : forall ms o b x, numbered (ms ++ [(b, x)]) -> one_history (ms ++ [(b, x)]) -> clean ms o -> exists o', apply_data o b x = Some o' /\ clean (ms ++ [(b, x)]) o'.
  Proof.
    intros ms o b x NU OH (T & W & N). unfold Observer_Model.apply_data. assert (I : In (b, x) (ms ++ [(b, x)])) by (apply in_or_app; right; left; reflexivity). pose proof (NU b x I) as NB.
    unfold can_process. destruct (Nat.leb_spec (b_start b) (o_last o)) as [LE|GT].
    - destruct (Nat.eqb_spec (o_last o) 0) as [E|NE]; [lia|]. cbn. exists o. split; [reflexivity|]. split; [exact (tidy_more ms _ o T)|]. split; [exact W|].
      intros c y J L. apply in_app_or in J. destruct J as [J|[J|[]]]; [exact (N c y J L)|]. injection J as <- <-. lia.
    - rewrite orb_true_r. cbn [negb]. pose proof (tidy_add (ms ++ [(b, x)]) o b x (tidy_more ms _ o T) I GT) as T1. pose proof (noted_add ms o b x N) as N1.
      assert (G1 : get (b_start b) (o_batches (add_batch o b x)) <> None) by (unfold add_batch; destruct (get (b_start b) (o_batches o)); cbn; rewrite get_set, Nat.eqb_refl; discriminate).
      pose proof (can_apply_total _ _ _ T1 G1) as CT. destruct (can_apply (add_batch o b x) b) as [[|]|] eqn:C; [| |congruence].
      + destruct (tidy_apply _ _ b NU OH T1 (ex_intro _ x I) C) as (o2 & D2 & T2 & _). rewrite D2. destruct (tidy_stashed (length (o_heap o2)) _ o2 NU OH T2 (le_n _)) as (o3 & P3 & T3 & W3). exists o3. split; [exact P3|].
        split; [exact T3|]. split; [exact W3|]. apply (noted_stashed (length (o_heap o2)) _ o2 o3 NU OH T2); [|exact P3]. apply (noted_apply _ _ b o2 N1 D2); [unfold add_batch; destruct (get (b_start b) (o_batches o)); cbn; lia | lia].
      + exists (add_batch o b x). split; [reflexivity|]. split; [exact T1|]. split; [|exact N1].
        assert (LA : o_last (add_batch o b x) = o_last o) by (unfold add_batch; destruct (get (b_start b) (o_batches o)); reflexivity).
        (* if it is not the next one, what is next is as before *)
        unfold waiting. rewrite LA. destruct (Nat.eqb_spec (o_last o) 0) as [E|NE].
        * destruct (hd_error (o_heap (add_batch o b x))) as [h0|] eqn:HH; [|exact Logic.I]. destruct (Nat.eq_dec h0 (b_start b)) as [->|NEH].
          -- pose proof (cannot_apply _ _ b T1 G1) as CA. unfold waiting in CA. rewrite LA, HH in CA. destruct (Nat.eqb_spec (o_last o) 0) as [_|Z]; [|lia]. apply CA; [intros _; left; reflexivity | intros _; left; reflexivity | exact C].
          -- assert (HO : hd_error (o_heap o) = Some h0).
             { unfold add_batch in HH. destruct (get (b_start b) (o_batches o)); [exact HH|]. cbn in HH. destruct (o_heap o) as [|z hs]; cbn in HH; [injection HH as <-; congruence|]. destruct (b_start b <=? z); cbn in HH; [injection HH as <-; congruence | exact HH]. }
             unfold waiting in W. destruct (Nat.eqb_spec (o_last o) 0) as [_|Z]; [|lia]. rewrite HO in W.
             assert (GE : get h0 (o_batches (add_batch o b x)) = get h0 (o_batches o)) by (unfold add_batch; destruct (get (b_start b) (o_batches o)); cbn; rewrite get_set; destruct (Nat.eqb_spec (b_start b) h0); congruence).
             rewrite GE. exact W.
        * destruct (Nat.eq_dec (b_start b) (o_last o + 1)) as [EB|NEB].
          -- pose proof (cannot_apply _ _ b T1 G1) as CA. unfold waiting in CA. rewrite LA in CA. destruct (Nat.eqb_spec (o_last o) 0) as [Z|_]; [lia|]. apply CA; [intros _; right; exact EB | intros Z; lia | exact C].
          -- unfold waiting in W. destruct (Nat.eqb_spec (o_last o) 0) as [Z|_]; [lia|].
             assert (GE : get (o_last o + 1) (o_batches (add_batch o b x)) = get (o_last o + 1) (o_batches o)) by (unfold add_batch; destruct (get (b_start b) (o_batches o)); cbn; rewrite get_set; destruct (Nat.eqb_spec (b_start b) (o_last o + 1)); congruence).
             rewrite GE. exact W.
  Qed.
  Lemma numbered_less : forall ms p, numbered (ms ++ [p]) -> numbered ms.
  Proof. intros ms p N b s I. apply (N b s). apply in_or_app. left. exact I. Qed.
  Lemma one_history_less : forall ms p, one_history (ms ++ [p]) -> one_history ms.
  Proof. intros ms p N b s c t I J. apply (N b s c t); apply in_or_app; left; assumption. Qed.
  Lemma run_clean : forall ms, numbered ms -> one_history ms -> exists o, run init ms = Some o /\ clean ms o.
  Proof.
    induction ms as [|[b x] ms IH] using rev_ind; intros NU OH.
    - exists init. split; [reflexivity|]. split; [|split].
      + split; [intros s m G; discriminate|]. split; [constructor|]. split; [intros s; cbn; split; [intros []|congruence] | intros s []].
      + exact Logic.I.
      + intros b x [].
    - destruct (IH (numbered_less _ _ NU) (one_history_less _ _ OH)) as (o & R & C). destruct (step_clean ms o b x NU OH C) as (o' & A & C'). exists o'. split; [|exact C']. apply run_snoc. exists o. auto.
  Qed.
  (** nothing that follows is left waiting with a quorum *)
  Lemma clean_none : forall ms o b, one_history ms -> clean ms o -> sent_by quorum ms b -> o_last o < b_start b -> (exists x, In (b, x) ms) ->
    (if o_last o =? 0 then hd_error (o_heap o) else Some (o_last o + 1)) = Some (b_start b) -> False.
  Proof.
    intros ms o b OH ((S & SO & K & LT) & W & N) (ss & ND & L & I) GT (x & X) NX. unfold waiting in W. rewrite NX in W. destruct (N b x X GT) as (m & c & G & J). rewrite G in W. destruct (S _ _ G) as (NM & NN & D).
    assert (ALL : forall y d, In (y, d) m -> d = b) by (intros y d Y; destruct (D y d Y) as [E Z]; exact (proj1 (OH d y b x Z X) E)).
    assert (LEN : quorum <= length m).
    { rewrite <- (map_length fst m). apply (Nat.le_trans _ (length ss) _ L). apply NoDup_incl_length; [exact ND|]. intros y Y. destruct (N b y (I y Y) GT) as (m' & d & G' & J'). assert (m' = m) by congruence. subst m'. change y with (fst (y, d)). apply in_map. exact J'. }
    apply W. split; [exact LEN|]. assert (CB : count b m = length m).
    { unfold count. clear - ALL. induction m as [|[y d] m IH]; cbn; [reflexivity|]. rewrite (ALL y d (or_introl eq_refl)). assert (E : batch_eqb b b = true) by (apply batch_eqb_eq; reflexivity). rewrite E. cbn. f_equal. apply IH. intros z e Z. apply (ALL z e). right. exact Z. }
    pose proof (most_common_ge m x c J) as MC. rewrite (ALL x c J), CB in MC. lia.
  Qed.
End P.
