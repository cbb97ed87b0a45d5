From Coq Require Import List Arith Bool Lia Permutation Sorted.
Import ListNotations.
From Verif Require Import Dict ClientMsg_Model ClientMsg_Spec.

Definition wf (s : state) : Prop := NoDup (map fst (pend s)) /\ forall i l, In (i, l) (pend s) -> l <> [].
Definition clog (i : nat) (s : state) : list event := filter (fun e => ev_client e =? i) (log s).

Lemma q_get s i l : l <> [] -> q s i = l -> get i (pend s) = Some l.
Proof. unfold q, get_or. destruct (get i (pend s)); intros N E; congruence. Qed.
Lemma q_in s i : wf s -> (In i (map fst (pend s)) <-> q s i <> []).
Proof.
  intros (W1 & W2). unfold q, get_or. destruct (get i (pend s)) as [l|] eqn:G.
  - apply get_in in G as I. split; [intros _; exact (W2 _ _ I)|intros _; exact (in_map fst _ _ I)].
  - apply get_none in G. split; [tauto|congruence].
Qed.
Lemma same_eq x y : same x y = true <-> x = y.
Proof.
  destruct x as (a, b), y as (c, d). unfold same. cbn [fst snd]. rewrite andb_true_iff, !Nat.eqb_eq. split; [intros (-> & ->); reflexivity|].
  intros E. injection E as -> ->. auto.
Qed.
Lemma list_remove_some x l : In x l -> exists l', list_remove x l = Some l' /\ Permutation l (x :: l') /\ length l = S (length l').
Proof.
  induction l as [|y l IH]; intros I; [destruct I|]. cbn [list_remove]. destruct (same x y) eqn:E.
  - apply same_eq in E as ->. exists l. auto.
  - destruct I as [->|I]; [rewrite (proj2 (same_eq x x) eq_refl) in E; discriminate|]. destruct (IH I) as (l' & -> & P & L).
    exists (y :: l'). split; [reflexivity|]. split; [rewrite P; apply perm_swap|simpl; lia].
Qed.
Lemma list_remove_exact x a l : ~ In x a -> list_remove x (a ++ x :: l) = Some (a ++ l).
Proof.
  induction a as [|y a IH]; cbn [app list_remove]; intros N.
  - rewrite (proj2 (same_eq x x) eq_refl). reflexivity.
  - destruct (same x y) eqn:E; [apply same_eq in E as ->; exfalso; apply N; left; reflexivity|]. rewrite IH; [reflexivity|].
    intros I. apply N. right. exact I.
Qed.
Lemma set_length {V} k (v : V) d : In k (map fst d) -> length (set k v d) = length d.
Proof.
  induction d as [|(k0, v0) d IH]; simpl; intros I; [destruct I|]. destruct (Nat.eqb_spec k k0) as [->|N]; simpl; [reflexivity|].
  rewrite IH; [reflexivity|]. destruct I as [E|I]; [congruence|exact I].
Qed.
Lemma filter_len {A} (f : A -> bool) l : length (filter f l) <= length l.
Proof. induction l as [|x l IH]; simpl; [lia|]. destruct (f x); simpl; lia. Qed.

Lemma remove_ok i x s : wf s -> In x (q s i) ->
  exists s', remove_message i x s = Some s' /\ wf s' /\ Permutation (q s i) (x :: q s' i)
    /\ (forall l, list_remove x (q s i) = Some l -> q s' i = l)
    /\ (forall j, j <> i -> q s' j = q s j) /\ length (pend s') <= length (pend s)
    /\ now s' = now s /\ pass s' = pass s /\ log s' = log s.
Proof.
  intros (W1 & W2) I. destruct (q s i) as [|y0 l0] eqn:Q; [destruct I|]. assert (G : get i (pend s) = Some (y0 :: l0)) by (apply q_get; [discriminate|exact Q]).
  destruct (list_remove_some _ _ I) as (l' & R & P & L). unfold remove_message. rewrite G, R.
  assert (K : In i (map fst (pend s))) by (apply get_in in G; exact (in_map fst _ _ G)).
  destruct l' as [|y l']; eexists; (split; [reflexivity|]); (split; [|split; [|split; [|split; [|split; [|auto]]]]]); unfold q, with_pend, get_or; cbn [pend].
  - split; [apply nodup_filter; exact W1|]. intros j l J. apply filter_In in J as (J & _). exact (W2 _ _ J).
  - cbn [pend]. rewrite get_del, Nat.eqb_refl. exact P.
  - intros l E. rewrite get_del, Nat.eqb_refl. congruence.
  - intros j N. rewrite get_del. destruct (Nat.eqb_spec j i); [congruence|reflexivity].
  - apply filter_len.
  - split; [apply nodup_set; exact W1|]. intros j l J. apply in_set in J as [(-> & ->)|J]; [discriminate|exact (W2 _ _ J)].
  - rewrite get_set, Nat.eqb_refl. exact P.
  - intros l E. rewrite get_set, Nat.eqb_refl. congruence.
  - intros j N. rewrite get_set. destruct (Nat.eqb_spec j i); [congruence|reflexivity].
  - rewrite set_length by exact K. lia.
Qed.

(** ** one walk over a client's list *)
Section Walk.
  Variable dec : nat -> nat * nat -> option why.
  Variable i : nat.
  Fixpoint gloop (k : nat) (l : queue) (s : state) : option state :=
    match l with
    | [] => Some s
    | x :: l' =>
        match dec k x with
        | None => gloop (S k) l' s
        | Some w => match remove_message i x s with None => None | Some s' => gloop (S k) l' (record_ev w i x s') end
        end
    end.
  Fixpoint stays (k : nat) (l : queue) : queue :=
    match l with [] => [] | x :: l' => match dec k x with None => x :: stays (S k) l' | Some _ => stays (S k) l' end end.
  Fixpoint leaves (t k : nat) (l : queue) : list event :=
    match l with
    | [] => []
    | x :: l' => match dec k x with
                 | None => leaves t (S k) l'
                 | Some w => {| ev_why := w; ev_client := i; ev_msg := x; ev_at := t |} :: leaves t (S k) l'
                 end
    end.

  Lemma stays_in k l x : In x (stays k l) -> In x l.
  Proof. revert k; induction l as [|y l IH]; intros k; simpl; [auto|]. destruct (dec k y); simpl; [eauto|intros [->|I]; eauto]. Qed.
  Lemma stays_len k l : length (stays k l) <= length l.
  Proof. revert k; induction l as [|y l IH]; intros k; simpl; [lia|]. specialize (IH (S k)). destruct (dec k y); simpl; lia. Qed.
  Lemma stays_perm t k l : Permutation l (map ev_msg (leaves t k l) ++ stays k l).
  Proof.
    revert k; induction l as [|y l IH]; intros k; simpl; [constructor|]. destruct (dec k y); simpl; rewrite (IH (S k)) at 1; [reflexivity|].
    apply Permutation_middle.
  Qed.
  Lemma leaves_in t k l e : In e (leaves t k l) ->
    ev_client e = i /\ ev_at e = t /\ exists k', dec k' (ev_msg e) = Some (ev_why e).
  Proof.
    revert k; induction l as [|y l IH]; intros k; simpl; [intros []|]. destruct (dec k y) eqn:D; [|apply IH].
    intros [<-|I]; [|eauto]. cbn [ev_client ev_at ev_why ev_msg]. eauto.
  Qed.

  Lemma gloop_ok l : forall k kept s, wf s -> Permutation (q s i) (kept ++ l) ->
    exists s', gloop k l s = Some s' /\ wf s' /\ Permutation (q s' i) (kept ++ stays k l)
      /\ (q s i = kept ++ l -> NoDup (q s i) -> q s' i = kept ++ stays k l)
      /\ (forall j, j <> i -> q s' j = q s j) /\ length (pend s') <= length (pend s)
      /\ now s' = now s /\ pass s' = pass s /\ log s' = log s ++ leaves (now s) k l.
  Proof.
    induction l as [|x l IH]; intros k kept s W P.
    - exists s. cbn [gloop stays leaves]. rewrite (app_nil_r (log s)). split; [reflexivity|]. split; [exact W|]. split; [exact P|]. split; [auto|]. auto 6.
    - cbn [gloop stays leaves]. destruct (dec k x) as [w|] eqn:D.
      + assert (Ix : In x (q s i)) by (apply (Permutation_in _ (Permutation_sym P)); apply in_or_app; right; left; reflexivity).
        destruct (remove_ok i x s W Ix) as (s1 & R & W1 & P1 & X1 & F1 & L1 & N1 & A1 & G1). rewrite R.
        set (s2 := record_ev w i x s1).
        assert (P2 : Permutation (q s2 i) (kept ++ l)).
        { change (q s2 i) with (q s1 i). apply (Permutation_cons_inv (a := x)). rewrite <- P1, P. symmetry. apply Permutation_middle. }
        destruct (IH (S k) kept s2 W1 P2) as (s' & E & W' & P' & X' & F' & L' & N' & A' & G'). exists s'.
        split; [exact E|]. split; [exact W'|]. split; [exact P'|]. split; [|split; [|split; [|split; [|split]]]].
        * intros Q N. assert (Nk : ~ In x kept). { rewrite Q in N. apply NoDup_remove_2 in N. rewrite in_app_iff in N. tauto. }
          assert (Q2 : q s2 i = kept ++ l). { change (q s2 i) with (q s1 i). apply X1. rewrite Q. apply list_remove_exact. exact Nk. }
          apply X'; [exact Q2|]. rewrite Q2. rewrite Q in N. exact (NoDup_remove_1 _ _ _ N).
        * intros j J. rewrite (F' j J). exact (F1 j J).
        * change (length (pend s2)) with (length (pend s1)) in L'. lia.
        * rewrite N'. exact N1.
        * rewrite A'. exact A1.
        * rewrite G'. unfold s2, record_ev. cbn [log now]. rewrite G1, N1, <- app_assoc. reflexivity.
      + assert (P2 : Permutation (q s i) ((kept ++ [x]) ++ l)) by (rewrite <- app_assoc; exact P).
        destruct (IH (S k) (kept ++ [x]) s W P2) as (s' & E & W' & P' & X' & T). exists s'.
        rewrite <- app_assoc in P'. cbn [app] in P'. split; [exact E|]. split; [exact W'|]. split; [exact P'|]. split; [|exact T].
        intros Q N. rewrite <- app_assoc in X'. cbn [app] in X'. rewrite <- app_assoc in X'. cbn [app] in X'. exact (X' Q N).
  Qed.
End Walk.

(** ** one walk over many clients *)
Section Walks.
  Variable decf : nat -> nat -> nat * nat -> option why.
  Fixpoint gclients (is : list nat) (s : state) : option state :=
    match is with
    | [] => Some s
    | i :: is' =>
        match get i (pend s) with
        | None => None
        | Some l => match gloop (decf i) i 0 l s with None => None | Some s' => gclients is' s' end
        end
    end.
  Lemma filter_leaves i j t k l : filter (fun e => ev_client e =? j) (leaves (decf i) i t k l) = if i =? j then leaves (decf i) i t k l else [].
  Proof.
    revert k; induction l as [|x l IH]; intros k; cbn [leaves filter]; [destruct (i =? j); reflexivity|].
    destruct (decf i k x); [|apply IH]. cbn [filter ev_client]. rewrite IH. destruct (i =? j); reflexivity.
  Qed.
  Lemma gclients_ok is : forall s, wf s -> NoDup is -> (forall i, In i is -> q s i <> []) ->
    exists s', gclients is s = Some s' /\ wf s'
      /\ (forall i, In i is -> Permutation (q s' i) (stays (decf i) 0 (q s i)) /\ (NoDup (q s i) -> q s' i = stays (decf i) 0 (q s i))
            /\ clog i s' = clog i s ++ leaves (decf i) i (now s) 0 (q s i))
      /\ (forall i, ~ In i is -> q s' i = q s i /\ clog i s' = clog i s)
      /\ length (pend s') <= length (pend s) /\ now s' = now s /\ pass s' = pass s
      /\ exists es, log s' = log s ++ es.
  Proof.
    induction is as [|i is IH]; intros s W N E; cbn [gclients].
    - exists s. split; [reflexivity|]. split; [exact W|]. split; [intros ? []|]. split; [auto|]. split; [lia|]. split; [reflexivity|].
      split; [reflexivity|]. exists []. rewrite app_nil_r. reflexivity.
    - inversion N as [|? ? N1 N2]; subst. assert (Q := E i (or_introl eq_refl)). rewrite (q_get s i (q s i) Q eq_refl).
      destruct (gloop_ok (decf i) i (q s i) 0 [] s W (Permutation_refl _)) as (s1 & -> & W1 & P1 & X1 & F1 & L1 & T1 & A1 & G1).
      assert (C1 : forall j, clog j s1 = clog j s ++ if i =? j then leaves (decf i) i (now s) 0 (q s i) else []).
      { intros j. unfold clog. rewrite G1, filter_app, filter_leaves. reflexivity. }
      assert (E1 : forall j, In j is -> q s1 j <> []). { intros j J. rewrite F1 by (intros ->; tauto). apply E. right. exact J. }
      destruct (IH s1 W1 N2 E1) as (s' & -> & W' & B' & O' & L' & T' & A' & es & G'). exists s'. split; [reflexivity|]. split; [exact W'|].
      split; [|split; [|split; [|split; [|split]]]].
      + intros j [<-|J].
        * destruct (O' i N1) as (O1 & O2). rewrite O1, O2. split; [exact P1|]. split; [intros Nd; exact (X1 eq_refl Nd)|].
          rewrite C1, Nat.eqb_refl. reflexivity.
        * assert (J' : j <> i) by (intros ->; tauto). destruct (B' j J) as (B1 & B2 & B3). rewrite (F1 j J') in B1, B2, B3. rewrite B3, C1, T1.
          split; [exact B1|]. split; [exact B2|]. destruct (Nat.eqb_spec i j); [congruence|]. rewrite app_nil_r. reflexivity.
      + intros j J. destruct (O' j) as (O1 & O2); [intros K; apply J; right; exact K|]. assert (J' : j <> i) by (intros ->; apply J; left; reflexivity).
        rewrite O1, O2, C1. split; [exact (F1 j J')|]. destruct (Nat.eqb_spec i j); [congruence|]. apply app_nil_r.
      + lia.
      + congruence.
      + congruence.
      + exists (leaves (decf i) i (now s) 0 (q s i) ++ es). rewrite G', G1, app_assoc. reflexivity.
  Qed.
  (** a walk over all that have a queue *)
  Lemma gclients_all s : wf s ->
    exists s', gclients (map fst (pend s)) s = Some s' /\ wf s'
      /\ (forall i, Permutation (q s' i) (stays (decf i) 0 (q s i)) /\ (NoDup (q s i) -> q s' i = stays (decf i) 0 (q s i))
            /\ clog i s' = clog i s ++ leaves (decf i) i (now s) 0 (q s i))
      /\ length (pend s') <= length (pend s) /\ now s' = now s /\ pass s' = pass s.
  Proof.
    intros W. destruct (gclients_ok (map fst (pend s)) s W (proj1 W)) as (s' & -> & W' & B & O & L & T & A & _).
    { intros i. apply q_in. exact W. }
    exists s'. split; [reflexivity|]. split; [exact W'|]. split; [|auto].
    intros i. destruct (in_dec Nat.eq_dec i (map fst (pend s))) as [I|I]; [exact (B i I)|]. destruct (O i I) as (O1 & O2).
    assert (Q : q s i = []). { destruct (q s i) eqn:Q; [reflexivity|]. exfalso. apply I. apply q_in; [exact W|]. rewrite Q. discriminate. }
    rewrite O1, O2, Q. cbn [stays leaves]. rewrite app_nil_r. auto.
  Qed.
End Walks.

Section Run.
  Variable net : nat -> nat -> nat -> outcome.
  Variables client_limit msg_limit resend_after remove_after : nat.
  Let give := give net client_limit msg_limit.
  Let step := step net client_limit msg_limit resend_after remove_after.
  Let run := run net client_limit msg_limit resend_after remove_after.

  Definition dec_send (due : nat * nat -> bool) (p i k : nat) (x : nat * nat) : option why :=
    if due x then if is_retry (net p i k) then None else Some (if is_taken (net p i k) then Sent else Unsendable) else None.
  Definition dec_clean (t : nat) (k : nat) (x : nat * nat) : option why := if too_old remove_after t x then Some Expired else None.
  (** the result of a walk *)
  Fixpoint res (due : nat * nat -> bool) (p i k : nat) (l : queue) (r : bool) : bool :=
    match l with [] => r | x :: l' => res due p i (S k) l' (if due x then is_taken (net p i k) else r) end.

  Lemma remove_pass i x s s' : remove_message i x s = Some s' -> pass s' = pass s /\ now s' = now s.
  Proof.
    unfold remove_message. destruct (get i (pend s)); [|discriminate]. destruct (list_remove x _) as [[|]|]; [| |discriminate]; intros E; injection E as <-; split; reflexivity.
  Qed.
  Lemma send_loop_eq due i l : forall k r s, send_loop net due i k l r s =
    match gloop (dec_send due (pass s) i) i k l s with None => None | Some s' => Some (s', res due (pass s) i k l r) end.
  Proof.
    induction l as [|x l IH]; intros k r s; cbn [send_loop gloop res]; [reflexivity|]. unfold dec_send at 1. destruct (due x) eqn:D; [|apply IH].
    destruct (net (pass s) i k) eqn:O; cbn [is_retry is_taken];
      [destruct (remove_message i x s) as [s1|] eqn:R; [|reflexivity]; rewrite IH; destruct (remove_pass _ _ _ _ R) as (R1 & _);
       unfold record_ev at 1 3; cbn [pass]; rewrite R1; reflexivity
      |destruct (remove_message i x s) as [s1|] eqn:R; [|reflexivity]; rewrite IH; destruct (remove_pass _ _ _ _ R) as (R1 & _);
       unfold record_ev at 1 3; cbn [pass]; rewrite R1; reflexivity
      |apply IH
      |destruct (remove_message i x s) as [s1|] eqn:R; [|reflexivity]; rewrite IH; destruct (remove_pass _ _ _ _ R) as (R1 & _);
       unfold record_ev at 1 3; cbn [pass]; rewrite R1; reflexivity].
  Qed.
  Lemma clean_loop_eq i l : forall k s, clean_loop remove_after i l s = gloop (dec_clean (now s)) i k l s.
  Proof.
    induction l as [|x l IH]; intros k s; cbn [clean_loop gloop]; [reflexivity|]. unfold dec_clean at 1. destruct (too_old remove_after (now s) x); [|apply IH].
    destruct (remove_message i x s) as [s1|] eqn:R; [|reflexivity]. rewrite (IH (S k)). destruct (remove_pass _ _ _ _ R) as (_ & R1).
    change (now (record_ev Expired i x s1)) with (now s1). rewrite R1. reflexivity.
  Qed.
  Lemma gloop_frame dec i l : forall k s s', gloop dec i k l s = Some s' -> pass s' = pass s /\ now s' = now s.
  Proof.
    induction l as [|x l IH]; intros k s s'; cbn [gloop]; [intros E; injection E as <-; auto|]. destruct (dec k x); [|apply IH].
    destruct (remove_message i x s) as [s1|] eqn:R; [|discriminate]. intros E. apply IH in E as (E1 & E2). apply remove_pass in R as (R1 & R2).
    unfold record_ev in E1, E2. cbn [pass now] in E1, E2. split; congruence.
  Qed.
  Lemma resend_clients_eq is : forall s, resend_clients net resend_after is s = gclients (fun i => dec_send (due_for_resend resend_after (now s)) (pass s) i) is s.
  Proof.
    induction is as [|i is IH]; intros s; cbn [resend_clients gclients]; [reflexivity|]. destruct (get i (pend s)) as [l|]; [|reflexivity].
    rewrite send_loop_eq. destruct (gloop _ i 0 l s) as [s1|] eqn:G; [|reflexivity]. apply gloop_frame in G as (G1 & G2). rewrite IH, G1, G2. reflexivity.
  Qed.
  Lemma clean_clients_eq is : forall s, clean_clients remove_after is s = gclients (fun _ => dec_clean (now s)) is s.
  Proof.
    induction is as [|i is IH]; intros s; cbn [clean_clients gclients]; [reflexivity|]. destruct (get i (pend s)) as [l|]; [|reflexivity].
    rewrite (clean_loop_eq i l 0). destruct (gloop _ i 0 l s) as [s1|] eqn:G; [|reflexivity]. apply gloop_frame in G as (G1 & G2). rewrite IH, G2. reflexivity.
  Qed.

  Hypothesis C1 : 1 <= client_limit.
  Hypothesis M1 : 1 <= msg_limit.
  Definition bounded (s : state) : Prop := length (pend s) <= client_limit /\ forall i, length (q s i) <= msg_limit.

  Definition evicted (i t : nat) (l : queue) : list event := map (fun x => {| ev_why := Evicted; ev_client := i; ev_msg := x; ev_at := t |}) l.
  Lemma fold_record j l : forall s, fold_left (fun s x => record_ev Evicted j x s) l s =
    {| pend := pend s; now := now s; pass := pass s; log := log s ++ evicted j (now s) l |}.
  Proof.
    induction l as [|x l IH]; intros s; cbn [fold_left evicted map]; [rewrite app_nil_r; destruct s; reflexivity|]. rewrite IH.
    unfold record_ev. cbn [pend now pass log]. rewrite <- app_assoc. reflexivity.
  Qed.
  Lemma filter_evicted i j t l : filter (fun e => ev_client e =? i) (evicted j t l) = if j =? i then evicted j t l else [].
  Proof. induction l as [|x l IH]; cbn; [destruct (j =? i); reflexivity|]. unfold evicted in IH. rewrite IH. destruct (j =? i); reflexivity. Qed.

  Lemma perm_len {A} (a b : list A) : Permutation a b -> length a = length b.
  Proof. apply Permutation_length. Qed.

  (** what one call of [transmit_through_listener] does *)
  Lemma give_ok i m s : wf s -> bounded s ->
    let q1 := q s i ++ [(now s, m)] in
    let cut := msg_limit <? length q1 in
    let q2 := if cut then tl q1 else q1 in
    let e0 := if cut then evicted i (now s) (firstn 1 q1) else [] in
    let d := dec_send (fun _ => true) (pass s) i in
    exists s', give i m s = Some (s', res (fun _ => true) (pass s) i 0 q2 true) /\ wf s' /\ bounded s' /\ now s' = now s
      /\ Permutation (q s' i) (stays d 0 q2) /\ (NoDup q2 -> q s' i = stays d 0 q2)
      /\ clog i s' = clog i s ++ e0 ++ leaves d i (now s) 0 q2
      /\ (forall j, j <> i -> (q s' j = q s j /\ clog j s' = clog j s)
            \/ (q s' j = [] /\ clog j s' = clog j s ++ evicted j (now s) (q s j) /\ client_limit <= length (pend s) /\ q s i = []))
      /\ (exists es0, log s' = log s ++ es0 ++ e0 ++ leaves d i (now s) 0 q2) /\ pass s' = S (pass s).
  Proof.
    intros (W1 & W2) (B1 & B2). cbv zeta. set (q1 := q s i ++ [(now s, m)]).
    assert (Nq1 : q1 <> []) by (unfold q1; destruct (q s i); discriminate).
    set (s1 := with_pend (set i q1 (pend s)) s).
    assert (W1' : NoDup (map fst (pend s1))) by (apply nodup_set; exact W1).
    assert (W2' : forall j l, In (j, l) (pend s1) -> l <> []).
    { intros j l J. apply in_set in J as [(-> & ->)|J]; [exact Nq1|exact (W2 _ _ J)]. }
    assert (Q1 : forall j, q s1 j = if j =? i then q1 else q s j).
    { intros j. unfold q at 1, s1, with_pend, get_or. cbn [pend]. rewrite get_set. destruct (j =? i); reflexivity. }
    (* the client that is evicted *)
    assert (EC : exists s2 es0, evict_client client_limit s1 = s2 /\ wf s2 /\ length (pend s2) <= client_limit /\ q s2 i = q1 /\ now s2 = now s /\ pass s2 = pass s
              /\ log s2 = log s ++ es0 /\ filter (fun e => ev_client e =? i) es0 = []
              /\ (forall j, j <> i -> (q s2 j = q s j /\ filter (fun e => ev_client e =? j) es0 = [])
                    \/ (q s2 j = [] /\ filter (fun e => ev_client e =? j) es0 = evicted j (now s) (q s j) /\ client_limit <= length (pend s) /\ q s i = []))).
    { unfold evict_client. destruct (Nat.ltb_spec client_limit (length (pend s1))) as [L|L].
      - assert (G : get i (pend s) = None).
        { destruct (get i (pend s)) as [l|] eqn:G; [|reflexivity]. exfalso. unfold s1, with_pend in L. cbn [pend] in L. rewrite set_length in L; [lia|].
          apply get_in in G. exact (in_map fst _ _ G). }
        assert (Qi : q s i = []) by (unfold q, get_or; rewrite G; reflexivity).
        assert (E1 : pend s1 = pend s ++ [(i, q1)]) by (unfold s1, with_pend; cbn [pend]; apply set_new; exact G).
        rewrite E1 in L. rewrite app_length in L. cbn [length] in L. destruct (pend s) as [|(j0, l0) rest] eqn:P; [cbn in L; lia|].
        cbn [app] in E1. rewrite E1, fold_record. assert (Nj : j0 <> i). { intros ->. cbn [get] in G. rewrite Nat.eqb_refl in G. discriminate. }
        assert (Q0 : q s j0 = l0) by (unfold q, get_or; rewrite P; cbn [get]; rewrite Nat.eqb_refl; reflexivity).
        rewrite E1 in W1', W2'. cbn [map fst] in W1'. inversion W1' as [|? ? V1 V2]; subst.
        set (s2 := {| pend := pend (with_pend (rest ++ [(i, q1)]) s1); now := now (with_pend (rest ++ [(i, q1)]) s1);
                      pass := pass (with_pend (rest ++ [(i, q1)]) s1);
                      log := log (with_pend (rest ++ [(i, q1)]) s1) ++ evicted j0 (now (with_pend (rest ++ [(i, q1)]) s1)) (q s j0) |}).
        assert (Q2 : forall j, q s2 j = if j =? j0 then [] else q s1 j).
        { intros j. unfold q at 1, s2, with_pend, get_or. cbn [pend]. destruct (Nat.eqb_spec j j0) as [->|N].
          - rewrite (proj2 (get_none j0 _) V1). reflexivity.
          - unfold q, get_or. rewrite E1. cbn [get]. destruct (Nat.eqb_spec j j0); [congruence|reflexivity]. }
        exists s2, (evicted j0 (now s) (q s j0)). split; [reflexivity|]. split; [|split; [|split; [|split; [|split; [|split; [|split]]]]]].
        + split; [exact V2|]. intros j l J. apply (W2' j l). right. exact J.
        + cbn [s2 pend with_pend]. rewrite app_length. cbn [length]. cbn [length] in L, B1. lia.
        + rewrite Q2. destruct (Nat.eqb_spec i j0); [congruence|]. rewrite Q1, Nat.eqb_refl. reflexivity.
        + reflexivity.
        + reflexivity.
        + reflexivity.
        + rewrite filter_evicted. destruct (Nat.eqb_spec j0 i); [congruence|reflexivity].
        + intros j J. rewrite filter_evicted, Q2. destruct (Nat.eqb_spec j j0) as [->|N].
          * right. rewrite Nat.eqb_refl. split; [reflexivity|]. split; [reflexivity|]. split; [cbn [length] in L |- *; lia|exact Qi].
          * left. destruct (Nat.eqb_spec j0 j); [congruence|]. rewrite Q1. destruct (Nat.eqb_spec j i); [congruence|]. auto.
      - exists s1, []. split; [reflexivity|]. split; [split; assumption|]. split; [exact L|]. split; [rewrite Q1, Nat.eqb_refl; reflexivity|].
        split; [reflexivity|]. split; [reflexivity|]. split; [rewrite app_nil_r; reflexivity|]. split; [reflexivity|].
        intros j J. left. rewrite Q1. destruct (Nat.eqb_spec j i); [congruence|]. split; reflexivity. }
    destruct EC as (s2 & es0 & E2 & (V1 & V2) & L2 & Qi2 & T2 & A2 & G2 & F2 & O2).
    set (cut := msg_limit <? length q1). set (q2 := if cut then tl q1 else q1). set (e0 := if cut then evicted i (now s) (firstn 1 q1) else []).
    (* the message that is evicted *)
    assert (EM : exists s3, evict_message msg_limit i s2 = Some s3 /\ wf s3 /\ length (pend s3) <= client_limit /\ q s3 i = q2 /\ now s3 = now s /\ pass s3 = pass s
              /\ log s3 = log s2 ++ e0 /\ forall j, j <> i -> q s3 j = q s2 j).
    { unfold evict_message. rewrite (q_get s2 i q1 Nq1 Qi2). fold cut. unfold q2, e0. destruct cut eqn:Cut.
      - destruct q1 as [|x l1] eqn:Eq1; [congruence|]. cbn [tl firstn]. assert (Nl : l1 <> []).
        { intros ->. unfold cut in Cut. apply Nat.ltb_lt in Cut. cbn in Cut. lia. }
        eexists. split; [reflexivity|]. unfold record_ev, with_pend, wf, q, get_or. cbn [pend now pass log].
        split; [split; [apply nodup_set; exact V1|intros j l J; apply in_set in J as [(-> & ->)|J]; [exact Nl|exact (V2 _ _ J)]]|].
        split; [rewrite set_length; [exact L2|]; apply q_in; [split; assumption|]; rewrite Qi2; discriminate|].
        split; [rewrite get_set, Nat.eqb_refl; reflexivity|]. split; [exact T2|]. split; [exact A2|].
        split; [cbn [evicted map]; rewrite T2; reflexivity|].
        intros j J. rewrite get_set. destruct (Nat.eqb_spec j i); [congruence|reflexivity].
      - exists s2. rewrite app_nil_r. repeat (split; [solve [auto | split; assumption]|]). auto. }
    destruct EM as (s3 & E3 & W3 & L3 & Q3 & T3 & A3 & G3 & O3).
    destruct (gloop_ok (dec_send (fun _ => true) (pass s) i) i q2 0 [] s3 W3) as (s4 & E4 & W4 & P4 & X4 & F4 & L4 & T4 & A4 & G4).
    { rewrite Q3. reflexivity. }
    assert (Lq2 : length q2 <= msg_limit).
    { assert (LQ : length q1 = S (length (q s i))) by (unfold q1; rewrite app_length; cbn; lia). specialize (B2 i).
      unfold q2, cut. destruct (Nat.ltb_spec msg_limit (length q1)) as [L|L]; [|lia]. destruct q1 as [|x l1]; [congruence|]. cbn [tl]. cbn [length] in LQ. lia. }
    exists (next_pass s4). split.
    { unfold give, ClientMsg_Model.give. fold q1. fold s1. rewrite E2, E3, Q3, send_loop_eq, A3, E4. reflexivity. }
    split; [exact W4|]. cbn [next_pass pend now log pass]. split; [|split; [|split; [|split; [|split; [|split; [|split]]]]]].
    - split; [cbn [pend next_pass]; lia|]. intros j. change (q (next_pass s4) j) with (q s4 j). destruct (Nat.eq_dec j i) as [->|J].
      + rewrite (perm_len _ _ P4). cbn [app]. pose proof (stays_len (dec_send (fun _ => true) (pass s) i) 0 q2). lia.
      + rewrite (F4 j J), (O3 j J). destruct (O2 j J) as [(-> & _)|(-> & _)]; [apply B2|cbn; lia].
    - congruence.
    - exact P4.
    - intros N. change (q (next_pass s4) i) with (q s4 i). apply X4; [exact Q3|rewrite Q3; exact N].
    - unfold clog. cbn [next_pass log]. rewrite G4, G3, G2, !filter_app, F2, T3, app_nil_r, <- app_assoc.
      f_equal. f_equal.
      + unfold e0. destruct cut; [rewrite filter_evicted, Nat.eqb_refl; reflexivity|reflexivity].
      + rewrite (filter_leaves (fun i => dec_send (fun _ => true) (pass s) i)), Nat.eqb_refl. reflexivity.
    - intros j J. change (q (next_pass s4) j) with (q s4 j). rewrite (F4 j J), (O3 j J).
      assert (CL : clog j (next_pass s4) = clog j s ++ filter (fun e => ev_client e =? j) es0).
      { unfold clog. cbn [next_pass log]. rewrite G4, G3, G2, !filter_app, (filter_leaves (fun i => dec_send (fun _ => true) (pass s) i)).
        destruct (Nat.eqb_spec i j); [congruence|]. rewrite app_nil_r.
        assert (filter (fun e => ev_client e =? j) e0 = []) as ->.
        { unfold e0. destruct cut; [rewrite filter_evicted; destruct (Nat.eqb_spec i j); [congruence|reflexivity]|reflexivity]. }
        rewrite app_nil_r. reflexivity. }
      destruct (O2 j J) as [(O21 & O22)|(O21 & O22 & O23)]; [left|right]; rewrite CL, O22; [rewrite app_nil_r; auto|auto].
    - exists es0. rewrite G4, G3, G2, T3, <- !app_assoc. reflexivity.
    - congruence.
  Qed.

  (** *** the other operations *)
  Lemma resend_ok s : wf s -> bounded s -> let d i := dec_send (due_for_resend resend_after (now s)) (pass s) i in
    exists s', step s Resend = Some s' /\ wf s' /\ bounded s' /\ now s' = now s /\ pass s' = S (pass s)
      /\ forall i, Permutation (q s' i) (stays (d i) 0 (q s i)) /\ (NoDup (q s i) -> q s' i = stays (d i) 0 (q s i))
            /\ clog i s' = clog i s ++ leaves (d i) i (now s) 0 (q s i).
  Proof.
    intros W (B1 & B2) d. destruct (gclients_all d s W) as (s' & E & W' & P & L & T & A). exists (next_pass s').
    split; [|split; [exact W'|split; [|split; [exact T|split; [cbn; congruence|exact P]]]]].
    - unfold step, ClientMsg_Model.step, resend. rewrite resend_clients_eq. fold d. rewrite E. reflexivity.
    - split; [cbn; lia|]. intros i. change (q (next_pass s') i) with (q s' i). rewrite (perm_len _ _ (proj1 (P i))).
      pose proof (stays_len (d i) 0 (q s i)). specialize (B2 i). lia.
  Qed.
  Lemma clean_ok s : wf s -> bounded s -> let d := dec_clean (now s) in
    exists s', step s Clean = Some s' /\ wf s' /\ bounded s' /\ now s' = now s
      /\ forall i, Permutation (q s' i) (stays d 0 (q s i)) /\ (NoDup (q s i) -> q s' i = stays d 0 (q s i))
            /\ clog i s' = clog i s ++ leaves d i (now s) 0 (q s i).
  Proof.
    intros W (B1 & B2) d. destruct (gclients_all (fun _ => d) s W) as (s' & E & W' & P & L & T & A). exists s'.
    split; [|split; [exact W'|split; [|split; [exact T|exact P]]]].
    - unfold step, ClientMsg_Model.step, clean. rewrite clean_clients_eq. exact E.
    - split; [lia|]. intros i. rewrite (perm_len _ _ (proj1 (P i))). pose proof (stays_len d 0 (q s i)). specialize (B2 i). lia.
  Qed.

  (** ** what a history does to one client *)
  Lemma gone_clog i s : gone i (log s) = map ev_msg (clog i s).
  Proof. reflexivity. Qed.

  Lemma run_snoc s os o : run s (os ++ [o]) = match run s os with None => None | Some s' => step s' o end.
  Proof.
    unfold run, step. revert s; induction os as [|o' os IH]; intros s; cbn [app ClientMsg_Model.run].
    - destruct (ClientMsg_Model.step _ _ _ _ _ s o); reflexivity.
    - destruct (ClientMsg_Model.step _ _ _ _ _ s o'); [apply IH|reflexivity].
  Qed.
  Fixpoint elapsed (os : list op) : nat := match os with [] => 0 | Tick d :: os' => d + elapsed os' | _ :: os' => elapsed os' end.
  Lemma given_snoc i os o : forall t, given t i (os ++ [o]) =
    given t i os ++ match o with Give j m => if j =? i then [(t + elapsed os, m)] else [] | _ => [] end.
  Proof.
    induction os as [|o' os IH]; intros t; cbn [app given elapsed].
    - rewrite Nat.add_0_r. destruct o; try reflexivity; destruct (i0 =? i); reflexivity.
    - destruct o' as [j m| | |d]; [destruct (j =? i); cbn [app]; rewrite IH; reflexivity|apply IH|apply IH|].
      rewrite IH, Nat.add_assoc. reflexivity.
  Qed.
  Lemma elapsed_snoc os o : elapsed (os ++ [o]) = elapsed os + match o with Tick d => d | _ => 0 end.
  Proof. induction os as [|o' os IH]; cbn; [destruct o; lia|]. destruct o'; rewrite ?IH; lia. Qed.

  Definition Inv (os : list op) (s : state) : Prop :=
    wf s /\ bounded s /\ now s = elapsed os /\ forall i, Permutation (given 0 i os) (map ev_msg (clog i s) ++ q s i).

  Lemma evicted_msgs i t l : map ev_msg (evicted i t l) = l.
  Proof. unfold evicted. rewrite map_map. cbn [ev_msg]. apply map_id. Qed.

  Lemma inv_step os s o : Inv os s -> exists s', step s o = Some s' /\ Inv (os ++ [o]) s'.
  Proof.
    intros (W & B & T & P). destruct o as [i m| | |d].
    - destruct (give_ok i m s W B) as (s' & E & W' & B' & T' & P' & X' & C' & O' & _). exists s'.
      split; [unfold step, ClientMsg_Model.step; fold (give i m s); rewrite E; reflexivity|].
      split; [exact W'|]. split; [exact B'|]. split; [rewrite elapsed_snoc; lia|].
      intros j. rewrite given_snoc. destruct (Nat.eqb_spec i j) as [<-|N].
      + rewrite C', !map_app, P', (P i). cbn [plus]. rewrite <- T, <- !app_assoc. apply Permutation_app_head.
        rewrite <- stays_perm. set (q1 := q s i ++ [(now s, m)]). destruct (msg_limit <? length q1); [|reflexivity].
        rewrite evicted_msgs. destruct q1 as [|x l]; cbn [tl firstn app]; reflexivity.
      + rewrite app_nil_r, (P j). assert (N' : j <> i) by congruence. destruct (O' j N') as [(-> & ->)|(-> & -> & _)]; [reflexivity|].
        rewrite map_app, evicted_msgs, app_nil_r. reflexivity.
    - destruct (resend_ok s W B) as (s' & E & W' & B' & T' & _ & F). exists s'. split; [exact E|]. split; [exact W'|]. split; [exact B'|].
      split; [rewrite elapsed_snoc; lia|]. intros j. rewrite given_snoc, app_nil_r, (P j). destruct (F j) as (F1 & _ & ->).
      rewrite map_app, F1, <- app_assoc, <- stays_perm. reflexivity.
    - destruct (clean_ok s W B) as (s' & E & W' & B' & T' & F). exists s'. split; [exact E|]. split; [exact W'|]. split; [exact B'|].
      split; [rewrite elapsed_snoc; lia|]. intros j. rewrite given_snoc, app_nil_r, (P j). destruct (F j) as (F1 & _ & ->).
      rewrite map_app, F1, <- app_assoc, <- stays_perm. reflexivity.
    - eexists. split; [reflexivity|]. split; [exact W|]. split; [exact B|]. split; [rewrite elapsed_snoc; cbn [now]; lia|].
      intros j. rewrite given_snoc, app_nil_r. exact (P j).
  Qed.
  Lemma inv_init : Inv [] init.
  Proof.
    split; [split; [apply NoDup_nil|intros ? ? []]|]. split; [split; [cbn; lia|intros i; cbn; lia]|]. split; [reflexivity|]. intros i. constructor.
  Qed.
  Lemma inv_run os : exists s, run init os = Some s /\ Inv os s.
  Proof.
    induction os as [|o os IH] using rev_ind; [exists init; split; [reflexivity|exact inv_init]|].
    destruct IH as (s & E & I). destruct (inv_step os s o I) as (s' & E' & I'). exists s'. rewrite run_snoc, E. auto.
  Qed.
  Lemma inv_of os s : run init os = Some s -> Inv os s.
  Proof. intros E. destruct (inv_run os) as (s' & E' & I). congruence. Qed.

  (** *** induction over histories with the invariant at hand *)
  Lemma run_ind (Q : list op -> state -> Prop) :
    Q [] init ->
    (forall os s o s', run init os = Some s -> Inv os s -> Q os s -> step s o = Some s' -> Q (os ++ [o]) s') ->
    forall os s, run init os = Some s -> Q os s.
  Proof.
    intros Q0 QS. induction os as [|o os IH] using rev_ind; intros s E.
    - injection E as <-. exact Q0.
    - destruct (inv_run os) as (s0 & E0 & I0). rewrite run_snoc, E0 in E. exact (QS os s0 o s E0 I0 (IH s0 E0) E).
  Qed.

  (** ** why messages leave *)
  Definition good_event (e : event) : Prop :=
    match ev_why e with
    | Sent => exists p k, net p (ev_client e) k = Taken
    | Unsendable => exists p k, net p (ev_client e) k = TooLarge \/ net p (ev_client e) k = Broken
    | Expired => remove_after <= ev_at e - fst (ev_msg e)
    | Evicted => True
    end.
  Lemma leaves_send_good due p i t k l e : In e (leaves (dec_send due p i) i t k l) -> good_event e /\ (ev_why e = Sent \/ ev_why e = Unsendable).
  Proof.
    intros I. apply leaves_in in I as (I1 & I2 & k' & D). unfold good_event. rewrite I1. unfold dec_send in D. destruct (due _); [|discriminate].
    destruct (net p i k') eqn:O; cbn [is_retry is_taken] in D; try discriminate; injection D as <-; split; eauto.
  Qed.
  Lemma in_clog e s : In e (log s) <-> In e (clog (ev_client e) s).
  Proof. unfold clog. rewrite filter_In, Nat.eqb_refl. tauto. Qed.

  Lemma why_run os s : run init os = Some s -> forall e, In e (log s) -> good_event e.
  Proof.
    revert os s. apply (run_ind (fun _ s => forall e, In e (log s) -> good_event e)); [intros e []|].
    intros os s o s' E (W & B & _) IH St e I. apply in_clog in I. destruct o as [i m| | |d].
    - destruct (give_ok i m s W B) as (s1 & E1 & _ & _ & _ & _ & _ & C' & O' & _). unfold step, ClientMsg_Model.step in St.
      fold (give i m s) in St. rewrite E1 in St. injection St as <-. destruct (Nat.eq_dec (ev_client e) i) as [Ei|N].
      + rewrite Ei, C', !in_app_iff in I. destruct I as [I|[I|I]].
        * apply IH, in_clog. rewrite Ei. exact I.
        * destruct (msg_limit <? _); [|destruct I]. apply in_map_iff in I as (x & <- & _). exact Logic.I.
        * exact (proj1 (leaves_send_good _ _ _ _ _ _ _ I)).
      + destruct (O' _ N) as [(_ & Cj)|(_ & Cj & _)]; rewrite Cj in I; [exact (IH e (proj2 (in_clog e s) I))|].
        apply in_app_iff in I as [I|I]; [exact (IH e (proj2 (in_clog e s) I))|]. apply in_map_iff in I as (x & <- & _). exact Logic.I.
    - destruct (resend_ok s W B) as (s1 & E1 & _ & _ & _ & _ & F). rewrite E1 in St. injection St as <-. destruct (F (ev_client e)) as (_ & _ & C).
      rewrite C in I. apply in_app_iff in I as [I|I]; [exact (IH e (proj2 (in_clog e s) I))|exact (proj1 (leaves_send_good _ _ _ _ _ _ _ I))].
    - destruct (clean_ok s W B) as (s1 & E1 & _ & _ & _ & F). rewrite E1 in St. injection St as <-. destruct (F (ev_client e)) as (_ & _ & C).
      rewrite C in I. apply in_app_iff in I as [I|I]; [exact (IH e (proj2 (in_clog e s) I))|]. apply leaves_in in I as (_ & A & k' & D).
      unfold dec_clean in D. destruct (too_old remove_after (now s) (ev_msg e)) eqn:Old; [|discriminate]. injection D as D. unfold good_event. rewrite <- D, A.
      apply Nat.leb_le in Old. exact Old.
    - injection St as <-. exact (IH e (proj2 (in_clog e s) I)).
  Qed.

  (** ** nothing is evicted within the limits *)
  Lemma all_given_app a b : all_given (a ++ b) = all_given a ++ all_given b.
  Proof. induction a as [|o a IH]; cbn [app all_given]; [reflexivity|]. destruct o; cbn [app]; rewrite ?IH; reflexivity. Qed.
  Lemma given_clients t i os : given t i os <> [] -> In i (map fst (all_given os)).
  Proof.
    revert t; induction os as [|o os IH]; intros t; cbn [given all_given]; [congruence|]. destruct o as [j m| | |d]; cbn [map fst]; [|apply IH..].
    destruct (Nat.eqb_spec j i) as [->|N]; [intros _; left; reflexivity|]. intros H. right. exact (IH _ H).
  Qed.
  Lemma q_given os s i : Inv os s -> length (q s i) <= length (given 0 i os).
  Proof. intros (_ & _ & _ & P). rewrite (perm_len _ _ (P i)), app_length. lia. Qed.
  Lemma pend_clients os s : Inv os s -> incl (map fst (pend s)) (map fst (all_given os)).
  Proof.
    intros I i J. apply (q_in s i (proj1 I)) in J. apply (given_clients 0). intros G. apply J. pose proof (q_given os s i I) as L. rewrite G in L.
    destruct (q s i); [reflexivity|cbn in L; lia].
  Qed.

  Lemma no_evict_run os s : run init os = Some s ->
    (length (nodup Nat.eq_dec (map fst (all_given os))) <= client_limit) -> (forall i, length (given 0 i os) <= msg_limit) ->
    forall e, In e (log s) -> ev_why e <> Evicted.
  Proof.
    revert os s. apply (run_ind (fun os s => length (nodup Nat.eq_dec (map fst (all_given os))) <= client_limit -> (forall i, length (given 0 i os) <= msg_limit) ->
      forall e, In e (log s) -> ev_why e <> Evicted)); [intros _ _ e []|].
    intros os s o s' E Iv IH St Lc Lm e I. assert (W := proj1 Iv). assert (B := proj1 (proj2 Iv)).
    assert (IH' : forall e, In e (log s) -> ev_why e <> Evicted).
    { apply IH.
      - refine (Nat.le_trans _ _ _ (NoDup_incl_length (NoDup_nodup _ _) _) Lc). intros x X. apply nodup_In in X. apply nodup_In.
        rewrite all_given_app, map_app. apply in_or_app. left. exact X.
      - intros i. specialize (Lm i). rewrite given_snoc, app_length in Lm. lia. }
    apply in_clog in I. destruct o as [i m| | |d].
    - destruct (give_ok i m s W B) as (s1 & E1 & _ & _ & _ & _ & _ & C' & O' & _). unfold step, ClientMsg_Model.step in St.
      fold (give i m s) in St. rewrite E1 in St. injection St as <-. destruct (Nat.eq_dec (ev_client e) i) as [Ei|N].
      + rewrite Ei, C', !in_app_iff in I. destruct I as [I|[I|I]].
        * apply IH', in_clog. rewrite Ei. exact I.
        * exfalso. specialize (Lm i). rewrite given_snoc, Nat.eqb_refl, app_length in Lm. cbn [length] in Lm.
          pose proof (q_given os s i Iv) as Lq. destruct (Nat.ltb_spec msg_limit (length (q s i ++ [(now s, m)]))) as [L|L]; [|destruct I].
          rewrite app_length in L. cbn [length] in L. lia.
        * destruct (proj2 (leaves_send_good _ _ _ _ _ _ _ I)); congruence.
      + destruct (O' _ N) as [(_ & Cj)|(Qj & Cj & Lj & Qi)]; rewrite Cj in I; [exact (IH' e (proj2 (in_clog e s) I))|].
        exfalso. assert (Ni : ~ In i (map fst (pend s))) by (rewrite (q_in s i W); intros X; exact (X Qi)).
        assert (L : length (i :: map fst (pend s)) <= length (nodup Nat.eq_dec (map fst (all_given (os ++ [Give i m]))))).
        { apply NoDup_incl_length; [apply NoDup_cons; [exact Ni|exact (proj1 W)]|]. intros x X. apply nodup_In. rewrite all_given_app, map_app.
          apply in_or_app. destruct X as [<-|X]; [right; left; reflexivity|left; exact (pend_clients os s Iv x X)]. }
        cbn [length] in L. rewrite map_length in L. lia.
    - destruct (resend_ok s W B) as (s1 & E1 & _ & _ & _ & _ & F). rewrite E1 in St. injection St as <-. destruct (F (ev_client e)) as (_ & _ & C).
      rewrite C in I. apply in_app_iff in I as [I|I]; [exact (IH' e (proj2 (in_clog e s) I))|]. destruct (proj2 (leaves_send_good _ _ _ _ _ _ _ I)); congruence.
    - destruct (clean_ok s W B) as (s1 & E1 & _ & _ & _ & F). rewrite E1 in St. injection St as <-. destruct (F (ev_client e)) as (_ & _ & C).
      rewrite C in I. apply in_app_iff in I as [I|I]; [exact (IH' e (proj2 (in_clog e s) I))|]. apply leaves_in in I as (_ & A & k' & D).
      unfold dec_clean in D. destruct (too_old _ _ _); [|discriminate]. injection D as D. congruence.
    - injection St as <-. exact (IH' e (proj2 (in_clog e s) I)).
  Qed.

  (** ** what a call returns *)
  Lemma res_last p i k l x r : res (fun _ => true) p i k (l ++ [x]) r = is_taken (net p i (k + length l)).
  Proof.
    revert k r; induction l as [|y l IH]; intros k r; cbn [app res length]; [rewrite Nat.add_0_r; reflexivity|]. rewrite IH. f_equal. f_equal. lia.
  Qed.
  Lemma leaves_snoc dec i t k l x : leaves dec i t k (l ++ [x]) = leaves dec i t k l ++
    match dec (k + length l) x with None => [] | Some w => [{| ev_why := w; ev_client := i; ev_msg := x; ev_at := t |}] end.
  Proof.
    revert k; induction l as [|y l IH]; intros k; cbn [app leaves length]; [rewrite Nat.add_0_r; destruct (dec k x); reflexivity|].
    rewrite IH. replace (S k + length l) with (k + S (length l)) by lia. destruct (dec k y); reflexivity.
  Qed.
  Lemma stays_snoc dec k l x : stays dec k (l ++ [x]) = stays dec k l ++ match dec (k + length l) x with None => [x] | Some _ => [] end.
  Proof.
    revert k; induction l as [|y l IH]; intros k; cbn [app stays length]; [rewrite Nat.add_0_r; destruct (dec k x); reflexivity|].
    rewrite IH. replace (S k + length l) with (k + S (length l)) by lia. destruct (dec k y); reflexivity.
  Qed.
  Lemma last_of_q2 (l : queue) x (b : bool) : (b = true -> l <> []) -> exists l', (if b then tl (l ++ [x]) else l ++ [x]) = l' ++ [x].
  Proof. destruct b; intros N; [|eauto]. destruct l as [|y l]; [exfalso; apply N; reflexivity|]. cbn [app tl]. eauto. Qed.

  Lemma give_result os s i m : run init os = Some s -> exists s' r, give i m s = Some (s', r)
    /\ (r = true -> exists es, log s' = log s ++ es ++ [{| ev_why := Sent; ev_client := i; ev_msg := (now s, m); ev_at := now s |}])
    /\ (r = false -> In (now s, m) (q s' i) \/ exists es, log s' = log s ++ es ++ [{| ev_why := Unsendable; ev_client := i; ev_msg := (now s, m); ev_at := now s |}]).
  Proof.
    intros R. destruct (inv_of _ _ R) as (W & B & _). destruct (give_ok i m s W B) as (s' & E & _ & _ & _ & P & _ & _ & _ & (es0 & G) & _).
    exists s'. eexists. split; [exact E|]. clear E.
    set (q1 := q s i ++ [(now s, m)]) in *. destruct (last_of_q2 (q s i) (now s, m) (msg_limit <? length q1)) as (l' & Q2).
    { intros L. apply Nat.ltb_lt in L. intros Z. unfold q1 in L. rewrite Z in L. cbn in L. lia. }
    fold q1 in Q2. rewrite Q2 in *. rewrite res_last. rewrite leaves_snoc in G. rewrite stays_snoc in P. unfold dec_send at 2 in G. unfold dec_send at 2 in P.
    cbn [plus] in *. set (e0 := if msg_limit <? length q1 then _ else _) in *. clearbody e0. clear Q2 q1.
    set (L := leaves _ i (now s) 0 l') in *.
    destruct (net (pass s) i (length l')) eqn:O; cbn [is_retry is_taken] in *; (split; [intros R0|intros R0]); try discriminate.
    - exists (es0 ++ e0 ++ L). rewrite G, <- !app_assoc. reflexivity.
    - right. exists (es0 ++ e0 ++ L). rewrite G, <- !app_assoc. reflexivity.
    - left. apply (Permutation_in _ (Permutation_sym P)). apply in_or_app. right. left. reflexivity.
    - right. exists (es0 ++ e0 ++ L). rewrite G, <- !app_assoc. reflexivity.
  Qed.

  (** ** what the timers leave *)
  Lemma stays_send_old due p i l : forall k x, In x (stays (dec_send due p i) k l) -> due x = true -> exists k', net p i k' = Retry.
  Proof.
    induction l as [|y l IH]; intros k x; cbn [stays]; [intros []|]. unfold dec_send at 1. destruct (due y) eqn:D.
    - destruct (net p i k) eqn:O; cbn [is_retry]; try (intros I Dx; exact (IH _ _ I Dx)). intros _ _. eauto.
    - intros [<-|I] Dx; [congruence|exact (IH _ _ I Dx)].
  Qed.
  Lemma resend_swept os s : run init os = Some s -> exists s', step s Resend = Some s' /\ forall i x, In x (q s' i) ->
    In x (q s i) /\ (resend_after <= now s - fst x -> exists k, net (pass s) i k = Retry).
  Proof.
    intros R. destruct (inv_of _ _ R) as (W & B & _). destruct (resend_ok s W B) as (s' & E & _ & _ & _ & _ & F). exists s'. split; [exact E|].
    intros i x I. destruct (F i) as (P & _ & _). apply (Permutation_in _ P) in I. split; [exact (stays_in _ _ _ _ I)|].
    intros L. apply (stays_send_old _ _ _ _ _ _ I). apply Nat.leb_le. exact L.
  Qed.
  Lemma stays_clean t l : forall k x, In x (stays (dec_clean t) k l) -> t - fst x < remove_after.
  Proof.
    induction l as [|y l IH]; intros k x; cbn [stays]; [intros []|]. unfold dec_clean at 1. destruct (too_old remove_after t y) eqn:D; [apply IH|].
    intros [<-|I]; [apply Nat.leb_gt in D; exact D|exact (IH _ _ I)].
  Qed.
  Lemma clean_swept os s : run init os = Some s -> exists s', step s Clean = Some s' /\ forall i x, In x (q s' i) ->
    In x (q s i) /\ now s - fst x < remove_after.
  Proof.
    intros R. destruct (inv_of _ _ R) as (W & B & _). destruct (clean_ok s W B) as (s' & E & _ & _ & _ & F). exists s'. split; [exact E|].
    intros i x I. destruct (F i) as (P & _ & _). apply (Permutation_in _ P) in I. split; [exact (stays_in _ _ _ _ I)|exact (stays_clean _ _ _ _ I)].
  Qed.

  (** ** a client that can always be reached *)
  Lemma sent_clog i s : sent i (log s) = map ev_msg (filter is_sent (clog i s)).
  Proof.
    unfold sent, clog. f_equal. induction (log s) as [|e l IH]; cbn [filter]; [reflexivity|].
    destruct (ev_client e =? i); cbn [andb filter]; destruct (is_sent e); rewrite ?IH; reflexivity.
  Qed.
  Lemma all_taken_leaves p i t l : (forall k, net p i k = Taken) -> forall k, stays (dec_send (fun _ => true) p i) k l = []
    /\ map ev_msg (filter is_sent (leaves (dec_send (fun _ => true) p i) i t k l)) = l.
  Proof.
    intros N. induction l as [|y l IH]; intros k; cbn [stays leaves]; [split; reflexivity|].
    assert (dec_send (fun _ => true) p i k y = Some Sent) as -> by (unfold dec_send; rewrite (N k); reflexivity). destruct (IH (S k)) as (I1 & I2). split; [exact I1|]. cbn [filter is_sent ev_why map ev_msg]. f_equal. exact I2.
  Qed.
  Lemma reachable_run i : (forall p k, net p i k = Taken) -> forall os s, run init os = Some s -> q s i = [] /\ sent i (log s) = given 0 i os.
  Proof.
    intros N. apply (run_ind (fun os s => q s i = [] /\ sent i (log s) = given 0 i os)); [split; reflexivity|].
    intros os s o s' E (W & B & T & _) (Q & IH) St. rewrite sent_clog in *. rewrite given_snoc. destruct o as [j m| | |d].
    - destruct (give_ok j m s W B) as (s1 & E1 & _ & _ & _ & P' & _ & C' & O' & _). unfold step, ClientMsg_Model.step in St.
      fold (give j m s) in St. rewrite E1 in St. injection St as <-. destruct (Nat.eqb_spec j i) as [->|J].
      + rewrite Q in P', C'. cbn [app length] in P', C'. assert (msg_limit <? 1 = false) as L by (apply Nat.ltb_ge; exact M1). rewrite L in P', C'.
        destruct (all_taken_leaves (pass s) i (now s) [(now s, m)] (N (pass s)) 0) as (A1 & A2). rewrite A1 in P'.
        apply Permutation_sym, Permutation_nil in P'. split; [exact P'|]. rewrite C'. cbn [app]. rewrite filter_app, map_app, A2, IH, T. reflexivity.
      + rewrite app_nil_r. assert (J' : i <> j) by congruence. destruct (O' i J') as [(-> & ->)|(-> & -> & _)]; [auto|]. rewrite Q. cbn [evicted map]. rewrite app_nil_r. auto.
    - destruct (resend_ok s W B) as (s1 & E1 & _ & _ & _ & _ & F). rewrite E1 in St. injection St as <-. destruct (F i) as (P & _ & ->).
      rewrite Q in P |- *. cbn [stays leaves] in *. apply Permutation_sym, Permutation_nil in P. rewrite !app_nil_r. auto.
    - destruct (clean_ok s W B) as (s1 & E1 & _ & _ & _ & F). rewrite E1 in St. injection St as <-. destruct (F i) as (P & _ & ->).
      rewrite Q in P |- *. cbn [stays leaves] in *. apply Permutation_sym, Permutation_nil in P. rewrite !app_nil_r. auto.
    - injection St as <-. rewrite app_nil_r. auto.
  Qed.

  (** ** order *)
  Inductive sub {A} : list A -> list A -> Prop :=
  | sub_nil l : sub [] l
  | sub_skip x l l' : sub l l' -> sub l (x :: l')
  | sub_keep x l l' : sub l l' -> sub (x :: l) (x :: l').
  Lemma sub_refl {A} (l : list A) : sub l l.
  Proof. induction l; constructor; assumption. Qed.
  Lemma sub_in {A} (l l' : list A) x : sub l l' -> In x l -> In x l'.
  Proof. induction 1; cbn; [intros []|auto|intros [->|I]; auto]. Qed.
  Lemma sub_app {A} (a a' b b' : list A) : sub a a' -> sub b b' -> sub (a ++ b) (a' ++ b').
  Proof. induction 1 as [l|x l l' S0 IH|x l l' S0 IH]; intros S1; cbn [app]; [|apply sub_skip; auto|apply sub_keep; auto]. induction l; cbn [app]; [exact S1|constructor; assumption]. Qed.
  Lemma sub_sorted {A} (R : A -> A -> Prop) l l' : sub l l' -> StronglySorted R l' -> StronglySorted R l.
  Proof.
    induction 1 as [l|x l l' S0 IH|x l l' S0 IH]; intros T; [constructor|inversion T; auto|]. inversion T as [|? ? T1 T2]; subst. constructor; [auto|].
    rewrite Forall_forall in *. intros y Y. apply T2. exact (sub_in _ _ _ S0 Y).
  Qed.
  Lemma sub_tl {A} (l : list A) : sub (tl l) l.
  Proof. destruct l; [constructor|]. cbn [tl]. apply sub_skip, sub_refl. Qed.
  Lemma stays_sub dec k l : sub (stays dec k l) l.
  Proof. revert k; induction l as [|y l IH]; intros k; cbn [stays]; [constructor|]. destruct (dec k y); constructor; apply IH. Qed.

  Definition before (x y : nat * nat) : Prop := fst x <= fst y /\ snd x < snd y.

  Lemma stuck due p i l : steady net -> forall k k0, k0 <= k -> net p i k0 = Retry -> stays (dec_send due p i) k l = l.
  Proof.
    intros St. induction l as [|y l IH]; intros k k0 K N; cbn [stays]; [reflexivity|]. unfold dec_send at 1. rewrite (St p i k0 k K N). cbn [is_retry].
    destruct (due y); rewrite (IH (S k) k0) by (assumption || lia); reflexivity.
  Qed.
  Lemma not_due dec l : (forall k x, In x l -> dec k x = None) -> forall i t k, stays dec k l = l /\ leaves dec i t k l = [].
  Proof.
    induction l as [|y l IH]; intros D i t k; cbn [stays leaves]; [auto|]. rewrite (D k y (or_introl eq_refl)).
    destruct (IH (fun k x I => D k x (or_intror I)) i t (S k)) as (-> & ->). auto.
  Qed.
  Lemma split_send (due : nat * nat -> bool) p i t : steady net -> (forall x y, fst x <= fst y -> due y = true -> due x = true) ->
    forall l k, StronglySorted before l ->
    sub (map ev_msg (filter is_sent (leaves (dec_send due p i) i t k l)) ++ stays (dec_send due p i) k l) l.
  Proof.
    intros St Due. induction l as [|y l IH]; intros k T; cbn [stays leaves]; [constructor|]. inversion T as [|? ? T1 T2]; subst.
    specialize (IH (S k) T1). destruct (dec_send due p i k y) as [w|] eqn:D.
    - cbn [filter]. destruct w; cbn [is_sent ev_why map ev_msg app]; constructor; exact IH.
    - assert (ND : forall k' x, S k <= k' -> In x l -> dec_send due p i k' x = None).
      { intros k' x K I. unfold dec_send in *. destruct (due y) eqn:Dy.
        - destruct (net p i k) eqn:O; cbn in D; try discriminate. rewrite (St p i k k') by (assumption || lia). destruct (due x); reflexivity.
        - destruct (due x) eqn:Dx; [|reflexivity]. exfalso. rewrite Forall_forall in T2. destruct (T2 x I) as (T3 & _). rewrite (Due y x T3 Dx) in Dy. discriminate. }
      assert (X : forall l' k', S k <= k' -> (forall x, In x l' -> In x l) -> stays (dec_send due p i) k' l' = l' /\ leaves (dec_send due p i) i t k' l' = []).
      { induction l' as [|z l' IH']; intros k' K Inc; cbn [stays leaves]; [auto|]. rewrite (ND k' z K (Inc z (or_introl eq_refl))).
        destruct (IH' (S k')) as (-> & ->); [lia|intros x I; apply Inc; right; exact I|]. auto. }
      destruct (X l (S k) (le_n _) (fun x I => I)) as (-> & ->). cbn [filter map app]. apply sub_refl.
  Qed.

  Definition FInv (os : list op) (s : state) : Prop :=
    forall i, StronglySorted before (sent i (log s) ++ q s i)
      /\ forall x, In x (sent i (log s) ++ q s i) -> fst x <= now s /\ In (snd x) (map snd (all_given os)).

  Lemma sorted_snoc_inv l x : StronglySorted lt (l ++ [x]) -> StronglySorted lt l /\ forall y, In y l -> y < x.
  Proof.
    induction l as [|a l IH]; cbn [app]; intros T; [split; [constructor|intros ? []]|]. inversion T as [|? ? T1 T2]; subst. destruct (IH T1) as (I1 & I2).
    rewrite Forall_forall in T2. split; [constructor; [exact I1|apply Forall_forall; intros y Y; apply T2; apply in_or_app; auto]|].
    intros y [<-|Y]; [apply T2; apply in_or_app; right; left; reflexivity|exact (I2 y Y)].
  Qed.
  Lemma sorted_snoc {A} (R : A -> A -> Prop) l x : StronglySorted R l -> (forall y, In y l -> R y x) -> StronglySorted R (l ++ [x]).
  Proof.
    induction l as [|a l IH]; cbn [app]; intros T H; [constructor; constructor|]. inversion T as [|? ? T1 T2]; subst. constructor.
    - apply IH; [exact T1|intros y Y; apply H; right; exact Y].
    - apply Forall_forall. intros y Y. apply in_app_iff in Y as [Y|[<-|[]]]; [rewrite Forall_forall in T2; exact (T2 y Y)|apply H; left; reflexivity].
  Qed.
  Lemma sorted_suffix {A} (R : A -> A -> Prop) a b : StronglySorted R (a ++ b) -> StronglySorted R b.
  Proof. apply sub_sorted. induction a; cbn [app]; [apply sub_refl|constructor; assumption]. Qed.
  Lemma before_nodup l : StronglySorted before l -> NoDup l.
  Proof.
    induction 1 as [|x l T1 IH T2]; [apply NoDup_nil|]. apply NoDup_cons; [|exact IH]. intros I. rewrite Forall_forall in T2. destruct (T2 x I). lia.
  Qed.

  Lemma fifo_inv : steady net -> forall os s, run init os = Some s -> StronglySorted lt (map snd (all_given os)) -> FInv os s.
  Proof.
    intros Sd. apply (run_ind (fun os s => StronglySorted lt (map snd (all_given os)) -> FInv os s)).
    { intros _ i. split; [constructor|intros x []]. }
    intros os s o s' E (W & B & T & _) IH St Sorted.
    (* a step that only takes from a client's sequence *)
    assert (Keep : forall os' t' i a b, FInv os s -> now s <= t' -> (forall z, In z (map snd (all_given os)) -> In z (map snd (all_given os'))) ->
              sub (a ++ b) (sent i (log s) ++ q s i) ->
              StronglySorted before (a ++ b) /\ forall x, In x (a ++ b) -> fst x <= t' /\ In (snd x) (map snd (all_given os'))).
    { intros os' t' i a b F Lt Inc Sb. destruct (F i) as (F1 & F2). split; [exact (sub_sorted _ _ _ Sb F1)|]. intros x X.
      destruct (F2 x (sub_in _ _ _ Sb X)) as (F3 & F4). split; [lia|exact (Inc _ F4)]. }
    destruct o as [j m| | |d].
    - rewrite all_given_app, map_app in Sorted. cbn [all_given map snd] in Sorted. destruct (sorted_snoc_inv _ _ Sorted) as (S1 & S2). specialize (IH S1).
      destruct (give_ok j m s W B) as (s1 & E1 & _ & _ & T' & P' & X' & C' & O' & _). unfold step, ClientMsg_Model.step in St.
      fold (give j m s) in St. rewrite E1 in St. injection St as <-. intros i. rewrite T'.
      assert (Inc : forall z, In z (map snd (all_given os)) -> In z (map snd (all_given (os ++ [Give j m])))).
      { intros z Z. rewrite all_given_app, map_app. apply in_or_app. left. exact Z. }
      destruct (Nat.eq_dec i j) as [->|N].
      + destruct (IH j) as (F1 & F2). set (q1 := q s j ++ [(now s, m)]) in *.
        assert (G1 : StronglySorted before (sent j (log s) ++ q1)).
        { unfold q1. rewrite app_assoc. apply sorted_snoc; [exact F1|]. intros y Y. destruct (F2 y Y) as (Y1 & Y2). split; [exact Y1|exact (S2 _ Y2)]. }
        assert (G2 : forall x, In x (sent j (log s) ++ q1) -> fst x <= now s /\ In (snd x) (map snd (all_given (os ++ [Give j m])))).
        { intros x X. unfold q1 in X. rewrite app_assoc in X. apply in_app_iff in X as [X|[<-|[]]].
          - destruct (F2 x X) as (X1 & X2). split; [exact X1|exact (Inc _ X2)].
          - cbn [fst snd]. split; [lia|]. rewrite all_given_app, map_app. apply in_or_app. right. left. reflexivity. }
        set (q2 := if msg_limit <? length q1 then tl q1 else q1) in *.
        assert (Sb2 : sub q2 q1) by (unfold q2; destruct (msg_limit <? length q1); [apply sub_tl|apply sub_refl]).
        assert (T2 : StronglySorted before q2) by exact (sub_sorted _ _ _ Sb2 (sorted_suffix _ _ _ G1)).
        rewrite (X' (before_nodup _ T2)). rewrite sent_clog, C', !filter_app, !map_app.
        assert (filter is_sent (if msg_limit <? length q1 then evicted j (now s) (firstn 1 q1) else []) = []) as ->.
        { destruct (msg_limit <? length q1); [|reflexivity]. destruct q1; reflexivity. }
        change (map ev_msg []) with (@nil (nat * nat)). rewrite app_nil_l, <- sent_clog, <- app_assoc.
        assert (Sb : sub (sent j (log s) ++ map ev_msg (filter is_sent (leaves (dec_send (fun _ => true) (pass s) j) j (now s) 0 q2))
                          ++ stays (dec_send (fun _ => true) (pass s) j) 0 q2) (sent j (log s) ++ q1)).
        { apply sub_app; [apply sub_refl|]. assert (Z := split_send (fun _ => true) (pass s) j (now s) Sd (fun _ _ _ _ => eq_refl) q2 0 T2).
          clear - Z Sb2. revert Z. generalize (map ev_msg (filter is_sent (leaves (dec_send (fun _ => true) (pass s) j) j (now s) 0 q2))
                          ++ stays (dec_send (fun _ => true) (pass s) j) 0 q2). revert Sb2. generalize q1 q2. intros l1 l2 Sb l Z. revert l Z.
          induction Sb as [u|x u v Sb IHs|x u v Sb IHs]; intros l Z.
          - inversion Z; subst; constructor.
          - constructor. apply IHs. exact Z.
          - inversion Z; subst; [constructor|constructor; apply IHs; assumption|constructor; apply IHs; assumption]. }
        split; [exact (sub_sorted _ _ _ Sb G1)|]. intros x X. exact (G2 x (sub_in _ _ _ Sb X)).
      + rewrite sent_clog. destruct (O' i N) as [(-> & ->)|(-> & -> & _)]; [rewrite <- sent_clog; apply (Keep _ _ i _ _ IH (le_n _) Inc), sub_refl|].
        rewrite filter_app. assert (filter is_sent (evicted i (now s) (q s i)) = []) as -> by (induction (q s i); [reflexivity|cbn; assumption]).
        rewrite (app_nil_r (filter is_sent (clog i s))), <- sent_clog. apply (Keep _ _ i _ _ IH (le_n _) Inc). apply sub_app; [apply sub_refl|constructor].
    - rewrite all_given_app, app_nil_r in Sorted. specialize (IH Sorted). intros i. rewrite all_given_app. cbn [all_given]. rewrite app_nil_r.
      destruct (resend_ok s W B) as (s1 & E1 & _ & _ & T' & _ & F). rewrite E1 in St. injection St as <-. destruct (F i) as (_ & X & C). rewrite T'.
      assert (T2 := sorted_suffix _ _ _ (proj1 (IH i))). rewrite (X (before_nodup _ T2)), sent_clog, C, filter_app, map_app, <- sent_clog, <- app_assoc.
      apply (Keep os (now s) i _ _ IH (le_n _) (fun z Z => Z)). apply sub_app; [apply sub_refl|]. apply (split_send _ _ _ _ Sd); [|exact T2].
      intros x y L D. apply Nat.leb_le in D. apply Nat.leb_le. lia.
    - rewrite all_given_app, app_nil_r in Sorted. specialize (IH Sorted). intros i. rewrite all_given_app. cbn [all_given]. rewrite app_nil_r.
      destruct (clean_ok s W B) as (s1 & E1 & _ & _ & T' & F). rewrite E1 in St. injection St as <-. destruct (F i) as (_ & X & C). rewrite T'.
      assert (T2 := sorted_suffix _ _ _ (proj1 (IH i))). rewrite (X (before_nodup _ T2)), sent_clog, C, filter_app, map_app.
      assert (forall k l, filter is_sent (leaves (dec_clean (now s)) i (now s) k l) = []) as Z.
      { intros k l. revert k; induction l as [|y l IHl]; intros k; cbn [leaves]; [reflexivity|]. unfold dec_clean at 1. destruct (too_old _ _ _); [cbn; apply IHl|apply IHl]. }
      rewrite Z. cbn [map]. rewrite app_nil_r, <- sent_clog. apply (Keep os (now s) i _ _ IH (le_n _) (fun z Z => Z)). apply sub_app; [apply sub_refl|apply stays_sub].
    - rewrite all_given_app, app_nil_r in Sorted. specialize (IH Sorted). intros i. rewrite all_given_app. cbn [all_given]. rewrite app_nil_r.
      injection St as <-. cbn [now log]. apply (Keep os (now s + d) i (sent i (log s)) (q s i) IH); [lia|auto|apply sub_refl].
  Qed.
  Lemma fifo os s i : steady net -> run init os = Some s -> StronglySorted lt (map snd (all_given os)) -> StronglySorted lt (map snd (sent i (log s))).
  Proof.
    intros Sd R So. destruct (fifo_inv Sd os s R So i) as (T & _). assert (T' : StronglySorted before (sent i (log s))).
    { apply (sub_sorted _ _ (sent i (log s) ++ q s i)); [|exact T]. rewrite <- (app_nil_r (sent i (log s))) at 1. apply sub_app; [apply sub_refl|constructor]. }
    clear - T'. induction T' as [|x l T1 IH T2]; cbn [map]; constructor; [exact IH|]. rewrite Forall_forall in *. intros y Y. apply in_map_iff in Y as (z & <- & Z).
    destruct (T2 z Z). assumption.
  Qed.
End Run.
