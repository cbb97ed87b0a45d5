(** Proofs about Send_Model.v. *)
From Coq Require Import List Arith Bool Lia.
From Verif Require Import Base Dict Send_Model.
Import ListNotations.

(** ** Subsequences *)
Inductive sub {A} : list A -> list A -> Prop :=
| sub_nil l : sub [] l
| sub_take a l m : sub l m -> sub (a :: l) (a :: m)
| sub_skip a l m : sub l m -> sub l (a :: m).
Lemma sub_refl {A} (l : list A) : sub l l.
Proof. induction l; constructor; assumption. Qed.
Lemma sub_trans {A} (l m n : list A) : sub l m -> sub m n -> sub l n.
Proof.
  intros L M. revert l L. induction M; intros l0 L.
  - inversion L; subst. constructor.
  - inversion L; subst; [constructor|constructor; auto|apply sub_skip; auto].
  - apply sub_skip. auto.
Qed.
Lemma sub_app {A} (l l' m m' : list A) : sub l l' -> sub m m' -> sub (l ++ m) (l' ++ m').
Proof.
  intros L M. induction L; cbn [app].
  - induction l as [|a l IH]; cbn [app]; [exact M|apply sub_skip; exact IH].
  - constructor. exact IHL.
  - apply sub_skip. exact IHL.
Qed.
Lemma sub_app_r {A} (l m : list A) : sub l (l ++ m).
Proof. rewrite <- (app_nil_r l) at 1. apply sub_app; [apply sub_refl|constructor]. Qed.
Lemma sub_filter {A} (f : A -> bool) l : sub (filter f l) l.
Proof. induction l as [|a l IH]; cbn [filter]; [constructor|]. destruct (f a); constructor; exact IH. Qed.
Lemma sub_in {A} (l m : list A) x : sub l m -> In x l -> In x m.
Proof. intros L. induction L; cbn; [tauto| |auto]. intros [E|E]; auto. Qed.

Section Proofs.
  Variable c : config.
  Variable verdict_of : list nat -> nat -> nat -> verdict.
  Notation consume := (consume c verdict_of).
  Notation send_batch := (send_batch c verdict_of).
  Notation requests_loop := (requests_loop c verdict_of).
  Notation fresh_loop := (fresh_loop c verdict_of).
  Notation send := (send_3pc_batch c verdict_of).
  Notation step := (step c verdict_of).
  Notation run := (run c verdict_of).

  (** ** One batch *)
  (** A request that is not proposed although its turn came: not known, or found to be ordered already *)
  Definition dropped (master : bool) (known : list nat) (r : nat) : Prop :=
    ~ In r known \/ (master = true /\ exists ap tm, verdict_of ap tm r = Malicious).
  (** The indices that are found invalid when the requests are applied in order *)
  Fixpoint judge (ap : list nat) (tm : nat) (rs : list nat) (i : nat) : option (list nat) :=
    match rs with
    | [] => Some []
    | r :: rs' =>
        match verdict_of ap tm r with
        | Valid => judge (ap ++ [r]) tm rs' (S i)
        | Invalid => option_map (cons i) (judge ap tm rs' (S i))
        | Malicious => None
        end
    end.

  Lemma consume_spec m kn tm : forall q reqs inv ap q' reqs' inv' ap',
    consume m kn tm q reqs inv ap = (q', reqs', inv', ap') -> exists d new,
      q = d ++ q' /\ reqs' = reqs ++ new /\ sub new d /\
      (forall r, In r d -> In r new \/ dropped m kn r) /\ (forall r, In r new -> In r kn) /\
      (q' = [] \/ max_size c <= length reqs') /\ (length reqs <= max_size c -> length reqs' <= max_size c) /\
      (if m then exists i, judge ap tm new (length reqs) = Some i /\ inv' = inv ++ i else inv' = inv /\ ap' = ap).
  Proof.
    induction q as [|k q IH]; intros reqs inv ap q' reqs' inv' ap'; cbn [Send_Model.consume].
    - intros E. injection E as <- <- <- <-. exists [], []. rewrite !app_nil_r. repeat split; auto using @sub_nil; try (intros ? []).
      destruct m; [exists []; rewrite app_nil_r; auto|auto].
    - destruct (Nat.ltb_spec (length reqs) (max_size c)) as [L|L].
      + destruct (existsb (Nat.eqb k) kn) eqn:K.
        * apply mem_in in K.
          assert (Take : forall i' ap1 inv1, 
            consume m kn tm q (reqs ++ [k]) inv1 ap1 = (q', reqs', inv', ap') ->
            (if m then (judge ap tm [k] (length reqs) = Some i' /\ inv1 = inv ++ i' /\
               forall rs j, judge ap1 tm rs (S (length reqs)) = Some j -> judge ap tm (k :: rs) (length reqs) = Some (i' ++ j))
             else inv1 = inv /\ ap1 = ap) ->
            exists d new, k :: q = d ++ q' /\ reqs' = reqs ++ new /\ sub new d /\
              (forall r, In r d -> In r new \/ dropped m kn r) /\ (forall r, In r new -> In r kn) /\
              (q' = [] \/ max_size c <= length reqs') /\ (length reqs <= max_size c -> length reqs' <= max_size c) /\
              (if m then exists i, judge ap tm new (length reqs) = Some i /\ inv' = inv ++ i else inv' = inv /\ ap' = ap)).
          { intros i' ap1 inv1 E J. apply IH in E as (d & new & -> & -> & S1 & D & Kn & Q & Le & J').
            exists (k :: d), (k :: new). rewrite <- app_assoc. cbn [app]. split; [reflexivity|]. split; [reflexivity|].
            split; [constructor; exact S1|].
            split. { intros r [<-|Hr]; [left; left; reflexivity|]. destruct (D r Hr); [left; right; assumption|right; assumption]. }
            split. { intros r [<-|Hr]; auto. }
            split; [rewrite <- app_assoc in Q; exact Q|].
            rewrite <- app_assoc in Le. rewrite (app_length reqs [k]) in Le. cbn [app length] in Le.
            split; [intros _; apply Le; lia|].
            destruct m.
            - destruct J as (_ & -> & J). destruct J' as (i & J1 & ->). rewrite app_length in J1. cbn [length] in J1.
              replace (length reqs + 1) with (S (length reqs)) in J1 by lia.
              exists (i' ++ i). rewrite app_assoc. split; [apply J; exact J1|reflexivity].
            - destruct J as [-> ->]. exact J'. }
          destruct m.
          -- destruct (verdict_of ap tm k) eqn:V.
             ++ intros E. apply (Take [] _ _ E). cbn [judge]. rewrite V. cbn [judge app]. rewrite app_nil_r. repeat split; auto.
             ++ intros E. apply (Take [length reqs] _ _ E). cbn [judge]. rewrite V. cbn [judge option_map app]. repeat split; auto.
                intros rs j ->. reflexivity.
             ++ intros E. apply IH in E as (d & new & -> & -> & S1 & D & Kn & Q & Le & J').
                exists (k :: d), new. split; [reflexivity|]. split; [reflexivity|]. split; [apply sub_skip; exact S1|].
                split. { intros r [<-|Hr]; [right; right; split; [reflexivity|exists ap, tm; exact V]|auto]. }
                auto.
          -- intros E. apply (Take [] _ _ E). auto.
        * intros E. apply IH in E as (d & new & -> & -> & S1 & D & Kn & Q & Le & J').
          exists (k :: d), new. split; [reflexivity|]. split; [reflexivity|]. split; [apply sub_skip; exact S1|].
          split. { intros r [<-|Hr]; [right; left; intros X; apply mem_in in X; congruence|auto]. }
          auto.
      + intros E. injection E as <- <- <- <-. exists [], []. rewrite !app_nil_r. repeat split; auto using @sub_nil; try (intros ? []).
        destruct m; [exists []; rewrite app_nil_r; auto|auto].
  Qed.

  (** What of the state a batch leaves as it is *)
  Definition frame (s s' : rep) : Prop :=
    r_master s' = r_master s /\ r_primary s' = r_primary s /\ r_participating s' = r_participating s /\
    r_reordered s' = r_reordered s /\ r_waiting s' = r_waiting s /\ r_view s' = r_view s /\ r_cert s' = r_cert s /\
    r_last_ordered s' = r_last_ordered s /\ r_known s' = r_known s /\ r_stored s' = r_stored s.
  Lemma frame_refl s : frame s s. Proof. repeat split. Qed.
  Lemma frame_trans s1 s2 s3 : frame s1 s2 -> frame s2 s3 -> frame s1 s3.
  Proof. unfold frame. intuition congruence. Qed.

  (** [p] takes the head of a queue and leaves [q'] of it *)
  Definition takes (s : rep) (p : pp) (q' : list nat) : Prop := exists d,
    queue s (p_lid p) = d ++ q' /\ sub (p_reqs p) d /\
    (forall r, In r d -> In r (p_reqs p) \/ dropped (r_master s) (r_known s) r) /\ (forall r, In r (p_reqs p) -> In r (r_known s)) /\
    length (p_reqs p) <= max_size c /\ (q' = [] \/ length (p_reqs p) = max_size c).

  Lemma queue_set s l q l' s' : r_queues s' = set l q (r_queues s) -> queue s' l' = if l' =? l then q else queue s l'.
  Proof. intros E. unfold queue. rewrite E, get_set. destruct (l' =? l); reflexivity. Qed.

  Lemma send_batch_spec l ts s s' p : send_batch l ts s = (s', p) ->
    frame s s' /\ p_lid p = l /\ p_view p = r_view s /\ p_seq p = S (r_last_pp s) /\ r_last_pp s' = S (r_last_pp s) /\
    p_time p = batch_time l ts s /\ r_time s' = Some (p_time p) /\
    takes s p (queue s' l) /\ (forall l', l' <> l -> queue s' l' = queue s l') /\
    (if r_master s then judge (r_applied s) (p_time p) (p_reqs p) 0 = Some (p_invalid p) else p_invalid p = []) /\
    r_fresh s' = r_fresh s /\ r_created s' = r_created s /\ r_needed s' = r_needed s /\
    r_sent s' = p :: filter (fun p' => negb (same p p')) (r_sent s) /\ r_batches s' = p :: r_batches s /\
    (forall l', In l' (map fst (r_queues s')) <-> l' = l \/ In l' (map fst (r_queues s))).
  Proof.
    unfold Send_Model.send_batch. set (tm := batch_time l ts s).
    destruct (consume (r_master s) (r_known s) tm (queue s l) [] [] (r_applied s)) as [[[q reqs] inv] ap] eqn:E.
    intros X. injection X as <- <-. apply consume_spec in E as (d & new & Eq & Er & S1 & D & Kn & Q & Le & J). cbn [app length] in *. subst reqs.
    assert (Qs : forall l', queue (Rep (r_master s) (r_primary s) (r_participating s) (r_reordered s) (r_waiting s) (r_view s) (r_cert s)
       (S (r_last_pp s)) (r_last_ordered s) (set l q (r_queues s)) (r_fresh s) (r_created s) (r_needed s)
       (Some tm) (r_stored s) (r_known s) ap (PP (r_view s) (S (r_last_pp s)) tm l new inv :: filter (fun p' => negb (same (PP (r_view s) (S (r_last_pp s)) tm l new inv) p')) (r_sent s)) (PP (r_view s) (S (r_last_pp s)) tm l new inv :: r_batches s)) l' = if l' =? l then q else queue s l').
    { intros l'. apply queue_set. reflexivity. }
    split; [repeat split|]. split; [reflexivity|]. split; [reflexivity|]. split; [reflexivity|]. split; [reflexivity|].
    split; [reflexivity|]. split; [reflexivity|].
    split.
    { exists d. cbn [p_lid p_reqs]. rewrite Qs, Nat.eqb_refl. split; [exact Eq|]. split; [exact S1|]. split; [exact D|]. split; [exact Kn|].
      specialize (Le (Nat.le_0_l _)). split; [exact Le|]. destruct Q; [left; assumption|right; lia]. }
    split. { intros l' N. rewrite Qs. destruct (Nat.eqb_spec l' l); congruence. }
    split. { cbn [p_time p_reqs p_invalid]. destruct (r_master s); [destruct J as (i & J & ->); exact J|apply J]. }
    split; [reflexivity|]. split; [reflexivity|]. split; [reflexivity|]. split; [reflexivity|]. split; [reflexivity|].
    intros l'. cbn [r_queues]. apply set_keys.
  Qed.

  (** ** Several batches *)
  Fixpoint sends (ts : nat) (ls : list nat) (s : rep) : rep * list pp :=
    match ls with
    | [] => (s, [])
    | l :: ls' => let '(s1, p) := send_batch l ts s in let '(s2, ps) := sends ts ls' s1 in (s2, p :: ps)
    end.
  Lemma sends_app ts a : forall b s, sends ts (a ++ b) s =
    let '(s1, p1) := sends ts a s in let '(s2, p2) := sends ts b s1 in (s2, p1 ++ p2).
  Proof.
    induction a as [|l a IH]; intros b s; cbn [sends app]; [destruct (sends ts b s); reflexivity|].
    destruct (send_batch l ts s) as [s1 p1]. rewrite IH. destruct (sends ts a s1) as [s2 p2]. destruct (sends ts b s2) as [s3 p3]. reflexivity.
  Qed.
  Lemma requests_loop_sends now ts ls : forall s o, NoDup ls ->
    requests_loop now ts ls s o = let '(s', ps) := sends ts (filter (fun l => due c now l s) ls) s in (s', o ++ ps).
  Proof.
    induction ls as [|l ls IH]; intros s o N; cbn [Send_Model.requests_loop filter sends]; [rewrite app_nil_r; reflexivity|].
    inversion N as [|? ? Nl N']; subst.
    destruct (due c now l s) eqn:D; [|apply IH; exact N'].
    cbn [sends]. destruct (send_batch l ts s) as [s1 p] eqn:E. rewrite IH by exact N'.
    pose proof (send_batch_spec _ _ _ _ _ E) as (_ & _ & _ & _ & _ & _ & _ & _ & Q & _ & _ & Cr & _).
    assert (F : filter (fun l0 => due c now l0 s1) ls = filter (fun l0 => due c now l0 s) ls).
    { apply filter_ext_in. intros l' Hl. unfold due. rewrite Q, Cr by (intros ->; contradiction). reflexivity. }
    rewrite F. destruct (sends ts _ s1) as [s2 ps]. rewrite <- app_assoc. reflexivity.
  Qed.
  Lemma fresh_loop_sends ts ls : forall s o, NoDup ls ->
    fresh_loop ts ls s o = let '(s', ps) := sends ts (filter (fun l => negb (existsb (Nat.eqb l) (map p_lid o))) ls) s in (s', o ++ ps).
  Proof.
    induction ls as [|l ls IH]; intros s o N; cbn [Send_Model.fresh_loop filter sends]; [rewrite app_nil_r; reflexivity|].
    inversion N as [|? ? Nl N']; subst.
    destruct (existsb (Nat.eqb l) (map p_lid o)) eqn:D; cbn [negb]; [apply IH; exact N'|].
    cbn [sends]. destruct (send_batch l ts s) as [s1 p] eqn:E. rewrite IH by exact N'.
    pose proof (send_batch_spec _ _ _ _ _ E) as (_ & El & _).
    assert (F : filter (fun l0 => negb (existsb (Nat.eqb l0) (map p_lid (o ++ [p])))) ls = filter (fun l0 => negb (existsb (Nat.eqb l0) (map p_lid o))) ls).
    { apply filter_ext_in. intros l' Hl. rewrite map_app, existsb_app. cbn [map existsb]. rewrite El.
      destruct (Nat.eqb_spec l' l) as [->|_]; [contradiction|]. rewrite !orb_false_r. reflexivity. }
    rewrite F. destruct (sends ts _ s1) as [s2 ps]. rewrite <- app_assoc. reflexivity.
  Qed.

  Lemma sends_spec ts ls : forall s s' ps, sends ts ls s = (s', ps) ->
    frame s s' /\ map p_lid ps = ls /\ map p_seq ps = seq (S (r_last_pp s)) (length ls) /\ r_last_pp s' = r_last_pp s + length ls /\
    (forall p, In p ps -> p_view p = r_view s) /\ (forall l, ~ In l ls -> queue s' l = queue s l) /\
    r_fresh s' = r_fresh s /\ r_created s' = r_created s /\ r_needed s' = r_needed s /\
    r_batches s' = rev ps ++ r_batches s /\ (forall l, In l (map fst (r_queues s')) <-> In l ls \/ In l (map fst (r_queues s))).
  Proof.
    induction ls as [|l ls IH]; intros s s' ps; cbn [sends].
    { intros E. injection E as <- <-. cbn [map length seq rev app In]. rewrite Nat.add_0_r.
      split; [apply frame_refl|]. repeat (split; [reflexivity|]). split; [intros p []|]. repeat (split; [reflexivity|]). tauto. }
    destruct (send_batch l ts s) as [s1 p] eqn:E1. destruct (sends ts ls s1) as [s2 ps'] eqn:E2. intros E. injection E as <- <-.
    apply send_batch_spec in E1 as (F1 & L1 & V1 & Q1 & P1 & _ & _ & _ & O1 & _ & Fr1 & C1 & N1 & _ & B1 & K1).
    apply IH in E2 as (F2 & L2 & Q2 & P2 & V2 & O2 & Fr2 & C2 & N2 & B2 & K2).
    split; [eapply frame_trans; eauto|]. split; [cbn [map]; congruence|].
    split. { cbn [map length seq]. rewrite Q1, Q2, P1. reflexivity. }
    split. { rewrite P2, P1. cbn [length]. lia. }
    split. { intros p' [<-|Hp]; [exact V1|]. rewrite (V2 p' Hp). apply F1. }
    split. { intros l' Nl. rewrite O2, O1; [reflexivity|intros ->; apply Nl; left; reflexivity|intros X; apply Nl; right; exact X]. }
    split; [congruence|]. split; [congruence|]. split; [congruence|].
    split. { rewrite B2, B1. cbn [rev]. rewrite <- app_assoc. reflexivity. }
    intros l'. rewrite K2, K1. cbn [In]. intuition congruence.
  Qed.
  Lemma takes_frame s s1 p q' : r_master s1 = r_master s -> r_known s1 = r_known s -> queue s1 (p_lid p) = queue s (p_lid p) ->
    takes s1 p q' -> takes s p q'.
  Proof. unfold takes. intros -> -> ->. auto. Qed.
  Lemma sends_takes ts ls : forall s s' ps, NoDup ls -> sends ts ls s = (s', ps) -> forall p, In p ps -> takes s p (queue s' (p_lid p)).
  Proof.
    induction ls as [|l ls IH]; intros s s' ps N; cbn [sends]; [intros E; injection E as <- <-; intros p []|].
    inversion N as [|? ? Nl N']; subst.
    destruct (send_batch l ts s) as [s1 p0] eqn:E1. destruct (sends ts ls s1) as [s2 ps'] eqn:E2. intros E. injection E as <- <-.
    pose proof (send_batch_spec _ _ _ _ _ E1) as (F1 & L1 & _ & _ & _ & _ & _ & T1 & O1 & _).
    pose proof (sends_spec _ _ _ _ _ E2) as (_ & L2 & _ & _ & _ & O2 & _).
    intros p [<-|Hp].
    - rewrite O2 by (rewrite L1; exact Nl). rewrite L1. exact T1.
    - apply (takes_frame s s1); [apply F1|apply F1| |eapply IH; eauto].
      apply O1. intros X. apply Nl. rewrite <- X, <- L2. apply in_map. exact Hp.
  Qed.
  Lemma sends_time ts ls : forall s s' ps, sends ts ls s = (s', ps) -> forall p, In p ps ->
    ts <= p_time p /\ (forall t, r_time s = Some t -> t <= p_time p).
  Proof.
    induction ls as [|l ls IH]; intros s s' ps; cbn [sends]; [intros E; injection E as <- <-; intros p []|].
    destruct (send_batch l ts s) as [s1 p0] eqn:E1. destruct (sends ts ls s1) as [s2 ps'] eqn:E2. intros E. injection E as <- <-.
    apply send_batch_spec in E1 as (_ & _ & _ & _ & _ & T1 & T2 & _).
    assert (T0 : ts <= p_time p0 /\ (forall t, r_time s = Some t -> t <= p_time p0)).
    { rewrite T1. unfold batch_time, known_time. destruct (r_time s) as [t|].
      - destruct (Nat.ltb_spec ts t); split; try lia; intros t' E; injection E as <-; lia.
      - split; [|discriminate]. destruct (l =? DOMAIN); [|lia]. destruct (r_stored s) as [[|t]|]; [lia| |lia].
        destruct (Nat.ltb_spec ts (S t)); lia. }
    intros p [<-|Hp]; [exact T0|]. destruct (IH _ _ _ E2 p Hp) as [A B]. split; [exact A|].
    intros t Et. specialize (B _ T2). pose proof (proj2 T0 t Et). lia.
  Qed.
  Lemma sends_judged ts ls : forall s s' ps, sends ts ls s = (s', ps) -> forall p, In p ps ->
    if r_master s then exists ap, judge ap (p_time p) (p_reqs p) 0 = Some (p_invalid p) else p_invalid p = [].
  Proof.
    induction ls as [|l ls IH]; intros s s' ps; cbn [sends]; [intros E; injection E as <- <-; intros p []|].
    destruct (send_batch l ts s) as [s1 p0] eqn:E1. destruct (sends ts ls s1) as [s2 ps'] eqn:E2. intros E. injection E as <- <-.
    apply send_batch_spec in E1 as (F1 & _ & _ & _ & _ & _ & _ & _ & _ & J & _).
    intros p [<-|Hp].
    - destruct (r_master s); [exists (r_applied s); exact J|exact J].
    - specialize (IH _ _ _ E2 p Hp). rewrite (proj1 F1) in IH. exact IH.
  Qed.

  (** *** The outdated ledgers *)
  Lemma insert_in ts a l x : In x (insert ts a l) <-> x = a \/ In x l.
  Proof.
    induction l as [|b l IH]; cbn [insert]; [cbn; intuition congruence|]. destruct (before ts a b); cbn [In]; [intuition congruence|].
    rewrite IH. intuition congruence.
  Qed.
  Lemma sort_in ts l x : In x (sort ts l) <-> In x l.
  Proof. induction l as [|a l IH]; cbn [sort fold_right]; [tauto|]. fold (sort ts l). rewrite insert_in, IH. cbn. intuition congruence. Qed.
  Lemma insert_nodup ts a l : NoDup (map fst (a :: l)) -> NoDup (map fst (insert ts a l)).
  Proof.
    induction l as [|b l IH]; intros N; cbn [insert]; [exact N|]. destruct (before ts a b); [exact N|]. cbn [map] in *.
    inversion N as [|? ? Na N']; subst. inversion N' as [|? ? Nb N'']; subst. constructor.
    - intros X. apply in_map_iff in X as (y & Ey & Hy). apply insert_in in Hy as [->|Hy].
      + apply Na. left. congruence.
      + apply Nb. rewrite <- Ey. apply in_map. exact Hy.
    - apply IH. constructor; [|exact N'']. intros X. apply Na. right. exact X.
  Qed.
  Lemma sort_nodup ts l : NoDup (map fst l) -> NoDup (map fst (sort ts l)).
  Proof.
    induction l as [|a l IH]; intros N; cbn [sort fold_right]; [constructor|]. fold (sort ts l). apply insert_nodup.
    cbn [map] in *. inversion N as [|? ? Na N']; subst. constructor; [|apply IH; exact N'].
    intros X. apply Na. apply in_map_iff in X as (y & Ey & Hy). apply sort_in in Hy. rewrite <- Ey. apply in_map. exact Hy.
  Qed.
  Definition stale (ts : nat) (f : freshness) (l : nat) : Prop :=
    exists u m, get l f = Some (u, m) /\ u + interval c < ts /\ m + interval c < ts.
  Lemma outdated_spec T ts u m : outdated T ts (u, m) = true <-> u + T < ts /\ m + T < ts.
  Proof.
    unfold outdated. cbn [fst snd]. rewrite andb_true_iff, !negb_true_iff, !Nat.leb_gt. lia.
  Qed.
  Lemma check_in ts f l : NoDup (map fst f) -> In l (snd (check_freshness (interval c) ts f)) <-> stale ts f l.
  Proof.
    intros N. cbn [snd check_freshness]. rewrite in_map_iff. split.
    - intros ((l' & u & m) & <- & H). cbn [fst]. apply sort_in, filter_In in H as [Hf O]. cbn [snd] in O. apply outdated_spec in O.
      exists u, m. split; [apply in_get; assumption|exact O].
    - intros (u & m & G & O). exists (l, (u, m)). split; [reflexivity|]. apply sort_in, filter_In. split; [apply get_in; exact G|].
      apply outdated_spec. exact O.
  Qed.
  Lemma check_nodup T ts f : NoDup (map fst f) -> NoDup (snd (check_freshness T ts f)).
  Proof. intros N. cbn [snd check_freshness]. apply sort_nodup. apply nodup_filter. exact N. Qed.
  Definition mark (ts : nat) (x : nat * nat) : nat * nat := (fst x, if outdated (interval c) ts x then ts else snd x).
  Lemma check_get ts f l : get l (fst (check_freshness (interval c) ts f)) = option_map (mark ts) (get l f).
  Proof.
    cbn [fst check_freshness]. induction f as [|(l', (u, m)) f IH]; [reflexivity|]. cbn [map get]. destruct (l =? l'); [reflexivity|exact IH].
  Qed.
  Lemma check_keys T ts f : map fst (fst (check_freshness T ts f)) = map fst f.
  Proof. cbn [fst check_freshness]. rewrite map_map. apply map_ext. intros (l & u & m). reflexivity. Qed.

  (** *** send_3pc_batch *)
  (** the ledgers that get a batch *)
  Definition targets (now ts : nat) (s : rep) : list nat :=
    let a := filter (fun l => due c now l s) (map fst (r_queues s)) in
    let b := if update c && r_master s then filter (fun l => negb (existsb (Nat.eqb l) a)) (snd (check_freshness (interval c) ts (r_fresh s))) else [] in
    match a ++ b with [] => if r_needed s then [DOMAIN] else [] | x => x end.

  Lemma sends_fresh ts f ls : forall s, sends ts ls (with_fresh f s) = let '(s', ps) := sends ts ls s in (with_fresh f s', ps).
  Proof.
    induction ls as [|l ls IH]; intros s; cbn [sends]; [reflexivity|].
    assert (E : send_batch l ts (with_fresh f s) = let '(s', p) := send_batch l ts s in (with_fresh f s', p)).
    { unfold Send_Model.send_batch. change (batch_time l ts (with_fresh f s)) with (batch_time l ts s).
      change (queue (with_fresh f s) l) with (queue s l). cbn [with_fresh r_master r_known r_applied].
      destruct (consume _ _ _ _ _ _ _) as [[[q reqs] inv] ap]. reflexivity. }
    rewrite E. destruct (send_batch l ts s) as [s1 p]. rewrite IH. destruct (sends ts ls s1) as [s2 ps]. reflexivity.
  Qed.

  Definition wf (s : rep) : Prop := NoDup (map fst (r_queues s)) /\ NoDup (map fst (r_fresh s)).

  Lemma send_spec now ts s s' o : wf s -> can_send c s = true -> send now ts s = (s', o) -> exists s1,
    sends ts (targets now ts s) s = (s1, o) /\ NoDup (targets now ts s) /\ frame s s' /\
    r_queues s' = r_queues s1 /\ r_last_pp s' = r_last_pp s1 /\ r_batches s' = r_batches s1 /\ r_sent s' = r_sent s1 /\
    r_time s' = r_time s1 /\ r_applied s' = r_applied s1 /\
    r_fresh s' = (if update c && r_master s then fst (check_freshness (interval c) ts (r_fresh s)) else r_fresh s) /\
    r_created s' = match o with [] => r_created s | _ => now end.
  Proof.
    intros [Nq Nf] Can. unfold send_3pc_batch. rewrite Can. cbn [negb]. rewrite requests_loop_sends by exact Nq.
    unfold targets. set (a := filter (fun l => due c now l s) (map fst (r_queues s))).
    assert (Na : NoDup a) by (apply NoDup_filter; exact Nq).
    destruct (sends ts a s) as [sa pa] eqn:Ea. cbn [app].
    pose proof (sends_spec _ _ _ _ _ Ea) as (Fa & La & _ & _ & _ & _ & Fra & Ca & Neda & _).
    rewrite (proj1 Fa), Fra.
    destruct (check_freshness (interval c) ts (r_fresh s)) as [f ls] eqn:Ec.
    assert (Nls : NoDup ls) by (pose proof (check_nodup (interval c) ts _ Nf) as X; rewrite Ec in X; exact X).
    set (b := filter (fun l => negb (existsb (Nat.eqb l) a)) ls).
    assert (Nb : NoDup (a ++ b)).
    { assert (Nb : NoDup b) by (apply NoDup_filter; exact Nls).
      assert (Dis : forall x, In x b -> ~ In x a).
      { intros x Hx. apply filter_In in Hx as [_ Hx]. intros X. apply mem_in in X. rewrite X in Hx. discriminate. }
      clearbody a b. clear - Na Nb Dis. induction a as [|x a IH]; cbn [app]; [exact Nb|].
      inversion Na as [|? ? Nx Na']; subst. constructor.
      - intros X. apply in_app_or in X as [X|X]; [contradiction|]. apply (Dis _ X). left. reflexivity.
      - apply IH; [exact Na'|]. intros y Hy X. apply (Dis y Hy). right. exact X. }
    (* the state and batches before the batch for the primaries *)
    assert (Mid : exists s1, sends ts (a ++ if update c && r_master s then b else []) s = (s1, map (fun p => p) (snd (sends ts (a ++ if update c && r_master s then b else []) s))) /\
      (if update c && r_master s then fresh_loop ts ls (with_fresh f sa) pa else (sa, pa)) =
        (if update c && r_master s then with_fresh f s1 else s1, snd (sends ts (a ++ if update c && r_master s then b else []) s)) /\
      frame s s1 /\ r_fresh s1 = r_fresh s /\ r_created s1 = r_created s /\ r_needed s1 = r_needed s).
    { rewrite map_id. destruct (update c && r_master s) eqn:U.
      - rewrite fresh_loop_sends by exact Nls. rewrite La. fold b. rewrite sends_fresh, sends_app, Ea.
        destruct (sends ts b sa) as [sb pb] eqn:Eb. exists sb. cbn [snd].
        pose proof (sends_spec _ _ _ _ _ Eb) as (Fb & _ & _ & _ & _ & _ & Frb & Cb & Nedb & _).
        split; [reflexivity|]. split; [reflexivity|]. split; [eapply frame_trans; eauto|]. repeat split; congruence.
      - rewrite app_nil_r, Ea. exists sa. cbn [snd]. auto 10. }
    destruct Mid as (s1 & E1 & E2 & F1 & Fr1 & C1 & Ned1). rewrite map_id in E1.
    set (L := a ++ if update c && r_master s then b else []) in *. cbn [fst snd].
    assert (NL : NoDup L).
    { unfold L. destruct (update c && r_master s); [exact Nb|rewrite app_nil_r; exact Na]. }
    change (snd (f, ls)) with ls. fold b. fold L.
    rewrite E2. set (o2 := snd (sends ts L s)) in *. clearbody o2.
    pose proof (sends_spec _ _ _ _ _ E1) as (_ & Lo & _).
    intros X. destruct o2 as [|p0 o2].
    - cbn [map] in Lo. rewrite <- Lo. cbn [sends] in *. rewrite <- Lo in E1. cbn [sends] in E1. injection E1 as <-.
      assert (Hn : r_needed (if update c && r_master s then with_fresh f s else s) = r_needed s) by (destruct (update c && r_master s); reflexivity).
      rewrite Hn in X. destruct (r_needed s).
      + destruct (send_batch DOMAIN ts (with_needed false (if update c && r_master s then with_fresh f s else s))) as [s3 p3] eqn:E3.
        injection X as <- <-.
        assert (E4 : exists s4, send_batch DOMAIN ts s = (s4, p3) /\ r_queues s3 = r_queues s4 /\ r_last_pp s3 = r_last_pp s4 /\
          r_batches s3 = r_batches s4 /\ r_sent s3 = r_sent s4 /\ r_time s3 = r_time s4 /\ r_applied s3 = r_applied s4).
        { unfold Send_Model.send_batch in *. set (s0 := if update c && r_master s then with_fresh f s else s) in *.
          assert (Q : batch_time DOMAIN ts (with_needed false s0) = batch_time DOMAIN ts s /\ queue (with_needed false s0) DOMAIN = queue s DOMAIN /\
            r_master (with_needed false s0) = r_master s /\ r_known (with_needed false s0) = r_known s /\ r_applied (with_needed false s0) = r_applied s /\
            r_view (with_needed false s0) = r_view s /\ r_last_pp (with_needed false s0) = r_last_pp s /\ r_queues (with_needed false s0) = r_queues s /\
            r_sent (with_needed false s0) = r_sent s /\ r_batches (with_needed false s0) = r_batches s).
          { unfold s0. destruct (update c && r_master s); repeat split. }
          destruct Q as (-> & -> & -> & -> & -> & -> & -> & -> & -> & ->) in E3.
          destruct (consume _ _ _ _ _ _ _) as [[[q reqs] inv] ap]. injection E3 as <- <-. eexists. split; [reflexivity|]. repeat split. }
        destruct E4 as (s4 & E4 & Q1 & Q2 & Q3 & Q4 & Q5 & Q6).
        apply send_batch_spec in E3 as (F3 & _ & _ & _ & _ & _ & _ & _ & _ & _ & Fr3 & _).
        exists s4. cbn [sends]. rewrite E4. cbn [with_created r_queues r_last_pp r_batches r_sent r_time r_applied r_fresh r_created].
        split; [reflexivity|]. split; [constructor; [intros []|constructor]|].
        split. { eapply frame_trans; [|eapply frame_trans; [exact F3|]]; [destruct (update c && r_master s); repeat split|repeat split]. }
        repeat (split; [assumption|]). split; [|reflexivity]. rewrite Fr3. destruct (update c && r_master s); reflexivity.
      + injection X as <- <-. exists s. split; [reflexivity|]. split; [constructor|].
        split; [destruct (update c && r_master s); repeat split|].
        destruct (update c && r_master s); repeat split.
    - injection X as <- <-. exists s1.
      assert (EL : match L with [] => if r_needed s then [DOMAIN] else [] | n :: l => n :: l end = L) by (rewrite <- Lo; reflexivity).
      rewrite EL. split; [exact E1|]. split; [exact NL|].
      split; [eapply frame_trans; [exact F1|]; destruct (update c && r_master s); repeat split|].
      cbn [with_created r_queues r_last_pp r_batches r_sent r_time r_applied r_fresh r_created].
      destruct (update c && r_master s); cbn [with_fresh r_queues r_last_pp r_batches r_sent r_time r_applied r_fresh r_created]; repeat split; auto.
  Qed.
  Lemma send_not now ts s : can_send c s = false -> send now ts s = (s, []).
  Proof. unfold send_3pc_batch. intros ->. reflexivity. Qed.

  (** ** Every step *)
  Lemma can_send_spec s : can_send c s = true <->
    r_primary s = true /\ r_participating s = true /\ (r_master s = true \/ r_reordered s = true) /\ r_waiting s = false /\
    r_cert s <= r_last_pp s /\ (0 < r_view s -> r_cert s < r_last_pp s -> r_cert s < snd (r_last_ordered s)) /\
    fst (r_last_ordered s) <= r_view s /\
    (fst (r_last_ordered s) = r_view s -> snd (r_last_ordered s) <= r_last_pp s /\
       forall m, in_flight c = Some m -> r_last_pp s - snd (r_last_ordered s) < m).
  Proof.
    unfold can_send.
    destruct (r_primary s); cbn [negb]; [|split; [discriminate|intros (A & _); discriminate A]].
    destruct (r_participating s); cbn [negb]; [|split; [discriminate|intros (_ & A & _); discriminate A]].
    destruct (r_master s), (r_reordered s); cbn [negb andb]; try (split; [discriminate|intros (_ & _ & [A|A] & _); discriminate A]);
    (destruct (r_waiting s); [split; [discriminate|intros (_ & _ & _ & A & _); discriminate A]|];
     destruct (Nat.ltb_spec (r_last_pp s) (r_cert s)); [split; [discriminate|intros (_ & _ & _ & _ & A & _); lia]|];
     destruct ((0 <? r_view s) && (r_cert s <? r_last_pp s) && (snd (r_last_ordered s) <? S (r_cert s))) eqn:B;
     [apply andb_true_iff in B as [B B3]; apply andb_true_iff in B as [B1 B2]; apply Nat.ltb_lt in B1, B2, B3;
      split; [discriminate|intros (_ & _ & _ & _ & _ & A & _); specialize (A B1 B2); lia]|];
     assert (B' : 0 < r_view s -> r_cert s < r_last_pp s -> r_cert s < snd (r_last_ordered s))
       by (intros X Y; apply Nat.ltb_lt in X, Y; rewrite X, Y in B; cbn [andb] in B; apply Nat.ltb_ge in B; lia);
     destruct (Nat.ltb_spec (r_view s) (fst (r_last_ordered s))); [split; [discriminate|intros (_ & _ & _ & _ & _ & _ & A & _); lia]|];
     destruct (Nat.eqb_spec (r_view s) (fst (r_last_ordered s))) as [Ev|Ev];
     [destruct (Nat.ltb_spec (r_last_pp s) (snd (r_last_ordered s)));
       [split; [discriminate|intros (_ & _ & _ & _ & _ & _ & _ & A); specialize (A (eq_sym Ev)); lia]|];
      destruct (in_flight c) as [m|];
      [rewrite negb_true_iff, Nat.leb_gt; split;
        [intros L; do 7 (split; [auto; fail|]); intros _; split; [assumption|]; intros m' E; injection E as <-; exact L
        |intros (_ & _ & _ & _ & _ & _ & _ & A); apply (A (eq_sym Ev)); reflexivity]
      |split; [|reflexivity]; intros _; do 7 (split; [auto; fail|]); intros _; split; [assumption|discriminate]]
     |split; [|reflexivity]; intros _; do 7 (split; [auto; fail|]); intros X; congruence]).
  Qed.

  Lemma queue_with_queues s l q l' : queue (with_queues (set l q (r_queues s)) s) l' = if l' =? l then q else queue s l'.
  Proof. apply queue_set. reflexivity. Qed.
  Lemma discard_in rs : forall q x, In x (fold_left (fun q r => os_discard r q) rs q) <-> In x q /\ ~ In x rs.
  Proof.
    induction rs as [|r rs IH]; intros q x; cbn [fold_left In]; [tauto|]. rewrite IH. unfold os_discard. rewrite filter_In, negb_true_iff, Nat.eqb_neq.
    intuition congruence.
  Qed.
  Lemma discard_sub rs : forall q, sub (fold_left (fun q r => os_discard r q) rs q) q.
  Proof.
    induction rs as [|r rs IH]; intros q; cbn [fold_left]; [apply sub_refl|]. eapply sub_trans; [apply IH|]. apply sub_filter.
  Qed.
  Lemma sub_nodup {A} (l m : list A) : sub l m -> NoDup m -> NoDup l.
  Proof.
    intros S0. induction S0; intros N; [constructor| |]; inversion N as [|? ? N1 N2]; subst; [constructor; [|auto]|auto].
    intros X. apply N1. eapply sub_in; eauto.
  Qed.
  Lemma adds_in rs : forall q x, In x (fold_left (fun q r => add r q) rs q) <-> In x q \/ In x rs.
  Proof. induction rs as [|r rs IH]; intros q x; cbn [fold_left In]; [tauto|]. rewrite IH, add_in. intuition congruence. Qed.
  Lemma adds_nodup rs : forall q, NoDup q -> NoDup (fold_left (fun q r => add r q) rs q).
  Proof. induction rs as [|r rs IH]; intros q N; cbn [fold_left]; [exact N|]. apply IH, add_nodup, N. Qed.
  Lemma discard_reqs_queue p s l : queue (discard_reqs p s) l =
    if l =? p_lid p then fold_left (fun q r => os_discard r q) (p_reqs p) (queue s l) else queue s l.
  Proof. unfold discard_reqs. rewrite queue_with_queues. destruct (Nat.eqb_spec l (p_lid p)) as [->|]; reflexivity. Qed.
  Lemma discards_queue ps : forall s l, sub (queue (fold_left (fun s p => discard_reqs p s) ps s) l) (queue s l) /\
    (forall r, In r (queue s l) -> In r (queue (fold_left (fun s p => discard_reqs p s) ps s) l) \/ exists p, In p ps /\ p_lid p = l /\ In r (p_reqs p)).
  Proof.
    induction ps as [|p ps IH]; intros s l; cbn [fold_left]; [split; [apply sub_refl|auto]|].
    destruct (IH (discard_reqs p s) l) as [A B]. rewrite discard_reqs_queue in A, B. destruct (Nat.eqb_spec l (p_lid p)) as [E|E].
    - split; [eapply sub_trans; [exact A|apply discard_sub]|]. intros r Hr. destruct (in_dec Nat.eq_dec r (p_reqs p)) as [I|I].
      + right. exists p. split; [left; reflexivity|]. auto.
      + destruct (B r) as [X|(p' & X & Y)]; [apply discard_in; auto|auto|right; exists p'; split; [right; exact X|exact Y]].
    - split; [exact A|]. intros r Hr. destruct (B r Hr) as [X|(p' & X & Y)]; [auto|right; exists p'; split; [right; exact X|exact Y]].
  Qed.
  (** what discarding leaves *)
  Lemma discards_rest ps : forall s, let s' := fold_left (fun s p => discard_reqs p s) ps s in
    r_master s' = r_master s /\ r_primary s' = r_primary s /\ r_participating s' = r_participating s /\ r_reordered s' = r_reordered s /\
    r_waiting s' = r_waiting s /\ r_view s' = r_view s /\ r_cert s' = r_cert s /\ r_last_pp s' = r_last_pp s /\
    r_last_ordered s' = r_last_ordered s /\ r_fresh s' = r_fresh s /\ r_known s' = r_known s /\ r_sent s' = r_sent s /\ r_batches s' = r_batches s /\
    r_time s' = r_time s.
  Proof.
    induction ps as [|p ps IH]; intros s; cbn [fold_left]; [repeat split|]. specialize (IH (discard_reqs p s)). cbn zeta in *. exact IH.
  Qed.
  Lemma discards_keys ps : forall s, NoDup (map fst (r_queues s)) -> NoDup (map fst (r_queues (fold_left (fun s p => discard_reqs p s) ps s))).
  Proof. induction ps as [|p ps IH]; intros s N; cbn [fold_left]; [exact N|]. apply IH. cbn [discard_reqs with_queues r_queues]. apply nodup_set, N. Qed.

  Lemma get_sent_in k s p : get_sent k s = Some p -> In p (r_sent s) /\ key p = k.
  Proof.
    unfold get_sent. intros F. apply find_some in F as [I E]. split; [exact I|]. apply andb_true_iff in E as [E1 E2].
    apply Nat.eqb_eq in E1, E2. unfold key. destruct k; cbn [fst snd] in *. congruence.
  Qed.
  Lemma get_sent_get s p : NoDup (map key (r_sent s)) -> In p (r_sent s) -> get_sent (key p) s = Some p.
  Proof.
    unfold get_sent. induction (r_sent s) as [|p0 ps IH]; cbn [map find In]; [tauto|]. intros N [->|I].
    - cbn [key fst snd]. rewrite !Nat.eqb_refl. reflexivity.
    - inversion N as [|? ? N1 N2]; subst. destruct ((p_view p0 =? fst (key p)) && (p_seq p0 =? snd (key p))) eqn:E; [|auto].
      exfalso. apply N1. apply andb_true_iff in E as [E1 E2]. apply Nat.eqb_eq in E1, E2.
      replace (key p0) with (key p); [apply in_map; exact I|]. unfold key in *. cbn [fst snd] in *. congruence.
  Qed.

  (** *** Well-formedness *)
  Definition wfq (s : rep) : Prop := wf s /\ forall l, NoDup (queue s l).
  Lemma send_wf now ts s s' o : wfq s -> send now ts s = (s', o) -> wfq s'.
  Proof.
    intros [W Q] E. destruct (can_send c s) eqn:Can; [|rewrite send_not in E by exact Can; injection E as <- _; split; assumption].
    destruct (send_spec _ _ _ _ _ W Can E) as (s1 & E1 & N & F & Eq & _ & _ & _ & _ & _ & Ef & _).
    assert (W1 : NoDup (map fst (r_queues s1)) /\ forall l, NoDup (queue s1 l)).
    { assert (X : NoDup (map fst (r_queues s)) /\ forall l, NoDup (queue s l)) by (split; [apply W|exact Q]).
      clear - E1 X. revert E1. generalize (targets now ts s). intros L. revert s s1 o X. induction L as [|l ls IH]; intros s0 s1 o X; cbn [sends].
      - intros E. injection E as <- <-. exact X.
      - destruct (send_batch l ts s0) as [s2 p] eqn:E2. destruct (sends ts ls s2) as [s3 ps] eqn:E3. intros E. injection E as <- <-.
        apply (IH s2 s3 ps); [|exact E3]. pose proof (send_batch_spec _ _ _ _ _ E2) as (_ & El & _ & _ & _ & _ & _ & T & O & _).
        split.
        + assert (Ek : r_queues s2 = set l (queue s2 l) (r_queues s0)).
          { unfold Send_Model.send_batch in E2. destruct (consume _ _ _ _ _ _ _) as [[[q reqs] inv] ap]. injection E2 as <- <-.
            unfold queue. cbn [r_queues]. rewrite get_set, Nat.eqb_refl. reflexivity. }
          rewrite Ek. apply nodup_set, X.
        + intros l'. destruct (Nat.eq_dec l' l) as [->|Nl]; [|rewrite O by exact Nl; apply X].
          destruct T as (d & Ed & _). rewrite El in Ed. pose proof (proj2 X l) as Nd. rewrite Ed in Nd.
          clear - Nd. induction d as [|x d IH]; cbn [app] in Nd; [exact Nd|]. inversion Nd; subst. auto. }
    split; [split|].
    - rewrite Eq. apply W1.
    - rewrite Ef. destruct (update c && r_master s); [rewrite check_keys|]; apply W.
    - intros l. unfold queue. rewrite Eq. apply W1.
  Qed.
  Lemma update_freshness_nodup l t f : NoDup (map fst f) -> NoDup (map fst (update_freshness l t f)).
  Proof. unfold update_freshness. intros N. destruct (get l f) as [[u m]|]; [apply nodup_set|]; exact N. Qed.
  Lemma remove_nodup ls : forall f, NoDup (map fst f) -> NoDup (map fst (remove_ledgers ls f)).
  Proof. unfold remove_ledgers. induction ls as [|l ls IH]; intros f N; cbn [fold_left]; [exact N|]. apply IH. apply nodup_filter, N. Qed.
  Lemma revert_loop_rest bs : forall s, let s' := revert_loop bs s in
    r_master s' = r_master s /\ r_primary s' = r_primary s /\ r_view s' = r_view s /\ r_cert s' = r_cert s /\
    r_last_ordered s' = r_last_ordered s /\ r_fresh s' = r_fresh s /\ r_known s' = r_known s /\ r_sent s' = r_sent s.
  Proof.
    induction bs as [|p bs IH]; intros s; cbn [revert_loop]; [repeat split|]. destruct (later (r_last_ordered s) (key p)); [|repeat split].
    specialize (IH (revert_one s p)). cbn zeta in *. exact IH.
  Qed.
  Lemma revert_one_queue s p l : queue (revert_one s p) l =
    match get_sent (key p) s with
    | Some p' => if l =? p_lid p then fold_left (fun q r => add r q) (p_reqs p') (queue s l) else queue s l
    | None => queue s l
    end.
  Proof.
    unfold revert_one. destruct (get_sent (key p) s) as [p'|]; [|reflexivity]. unfold queue at 1. cbn [r_queues with_queues].
    rewrite get_set. destruct (Nat.eqb_spec l (p_lid p)) as [->|]; reflexivity.
  Qed.
  Lemma revert_loop_wf bs : forall s, wfq s -> wfq (revert_loop bs s).
  Proof.
    induction bs as [|p bs IH]; intros s W; cbn [revert_loop]; [exact W|]. destruct (later (r_last_ordered s) (key p)); [|exact W].
    apply IH. split; [split|].
    - unfold revert_one. cbn [r_queues]. destruct (get_sent (key p) s); cbn [with_queues r_queues]; [apply nodup_set|]; apply W.
    - apply W.
    - intros l. rewrite revert_one_queue. destruct (get_sent (key p) s); [|apply W]. destruct (l =? p_lid p); [apply adds_nodup|]; apply W.
  Qed.
  Lemma step_wf s e s' o : wfq s -> step s e = (s', o) -> wfq s'.
  Proof.
    intros W. destruct e as [now ts|l r|r|r|fz|t|k|]; cbn [Send_Model.step].
    - apply send_wf, W.
    - intros E. injection E as <- <-. destruct (existsb (Nat.eqb r) (r_known s)); [|exact W]. split; [split|].
      + cbn [with_queues r_queues]. apply nodup_set, W.
      + apply W.
      + intros l'. rewrite queue_with_queues. destruct (l' =? l); [apply add_nodup|]; apply W.
    - intros E. injection E as <- <-. exact W.
    - intros E. injection E as <- <-. exact W.
    - intros E. injection E as <- <-. unfold order. destruct (get_sent _ s) as [p|]; [|exact W]. split; [split|].
      + cbn [discard_reqs with_queues r_queues]. apply nodup_set, W.
      + cbn [discard_reqs with_queues with_ordered with_fresh r_fresh]. apply remove_nodup, update_freshness_nodup, W.
      + intros l. rewrite discard_reqs_queue. change (queue (with_ordered _ _) l) with (queue s l).
        destruct (l =? p_lid p); [|apply W]. eapply sub_nodup; [apply discard_sub|apply W].
    - intros E. injection E as <- <-. exact (revert_loop_wf (r_batches s) s W).
    - intros E. injection E as <- <-. unfold caught_up. destruct (later (r_last_ordered s) k); [|exact W].
      set (ps := filter _ (r_sent s)).
      pose proof (discards_rest ps (with_ordered k s)) as D. cbn zeta in D.
      split; [split|].
      + cbn [r_queues]. apply discards_keys. apply W.
      + cbn [r_fresh]. replace (r_fresh (fold_left (fun s p => discard_reqs p s) ps (with_ordered k s))) with (r_fresh s) by (symmetry; apply D). apply W.
      + intros l. change (NoDup (queue (fold_left (fun s p => discard_reqs p s) ps (with_ordered k s)) l)).
        eapply sub_nodup; [apply discards_queue|]. apply W.
    - intros E. injection E as <- <-. exact W.
  Qed.
  Lemma run_app es1 : forall es2 s, run s (es1 ++ es2) = let '(s1, o1) := run s es1 in let '(s2, o2) := run s1 es2 in (s2, o1 ++ o2).
  Proof.
    induction es1 as [|e es IH]; intros es2 s; cbn [Send_Model.run app]; [destruct (run s es2); reflexivity|].
    destruct (step s e) as [s1 o1]. rewrite IH. destruct (run s1 es) as [s2 o2]. destruct (run s2 es2) as [s3 o3]. rewrite app_assoc. reflexivity.
  Qed.
  Lemma run_wf es : forall s s' o, wfq s -> run s es = (s', o) -> wfq s'.
  Proof.
    induction es as [|e es IH]; intros s s' o W; cbn [Send_Model.run]; [intros E; injection E as <- <-; exact W|].
    destruct (step s e) as [s1 o1] eqn:E1. destruct (run s1 es) as [s2 o2] eqn:E2. intros E. injection E as <- <-.
    eapply IH; [|exact E2]. eapply step_wf; eauto.
  Qed.

  (** *** The batches in flight *)
  Lemma later_iff a b : later a b = true <-> fst a < fst b \/ (fst a = fst b /\ snd a < snd b).
  Proof. unfold later. rewrite orb_true_iff, andb_true_iff, !Nat.ltb_lt, Nat.eqb_eq. tauto. Qed.
  Lemma later_not a b : later a b = false <-> fst b < fst a \/ (fst a = fst b /\ snd b <= snd a).
  Proof.
    destruct (later a b) eqn:E; [apply later_iff in E; split; [discriminate|lia]|]. split; [intros _|reflexivity].
    destruct (Nat.lt_trichotomy (fst a) (fst b)) as [L|[L|L]]; [|destruct (Nat.lt_ge_cases (snd a) (snd b))|]; try lia;
      (assert (later a b = true) by (apply later_iff; lia); congruence).
  Qed.

  Definition flight (s : rep) (bs rest : list pp) : Prop :=
    r_batches s = bs ++ rest /\ fst (r_last_ordered s) <= r_view s /\ snd (r_last_ordered s) <= r_last_pp s /\
    map p_seq bs = rev (seq (S (snd (r_last_ordered s))) (r_last_pp s - snd (r_last_ordered s))) /\
    (forall p, In p bs -> p_view p = r_view s /\ In p (r_sent s)) /\
    (forall p, In p rest -> later (r_last_ordered s) (key p) = false) /\
    NoDup (map key (r_sent s)).
  Lemma flight_later s bs rest p : flight s bs rest -> In p bs -> later (r_last_ordered s) (key p) = true /\ snd (r_last_ordered s) < p_seq p <= r_last_pp s.
  Proof.
    intros (_ & V & L & M & B & _) H. assert (R : snd (r_last_ordered s) < p_seq p <= r_last_pp s).
    { assert (I : In (p_seq p) (map p_seq bs)) by (apply in_map; exact H). rewrite M in I. apply in_rev, in_seq in I. lia. }
    split; [|exact R]. apply later_iff. cbn [key fst snd]. rewrite (proj1 (B p H)). lia.
  Qed.
  Lemma flight_in s bs rest p : flight s bs rest -> In p (r_batches s) -> later (r_last_ordered s) (key p) = true -> In p bs.
  Proof.
    intros (E & _ & _ & _ & _ & R & _) H L. rewrite E in H. apply in_app_or in H as [H|H]; [exact H|]. rewrite (R p H) in L. discriminate.
  Qed.

  Lemma key_eq p p' : key p = key p' <-> same p p' = true.
  Proof.
    unfold key, same. rewrite andb_true_iff, !Nat.eqb_eq. split; [intros E; injection E; auto|intros [-> ->]; reflexivity].
  Qed.
  Lemma sent_nodup (p : pp) ps : NoDup (map key ps) -> NoDup (map key (p :: filter (fun p' => negb (same p p')) ps)).
  Proof.
    intros N. cbn [map]. constructor.
    - intros X. apply in_map_iff in X as (p' & E & I). apply filter_In in I as [_ I]. apply negb_true_iff in I.
      assert (same p p' = true) by (apply key_eq; auto). congruence.
    - induction ps as [|x ps IH]; cbn [filter map]; [constructor|]. inversion N as [|? ? N1 N2]; subst.
      destruct (same p x); cbn [negb]; [auto|]. cbn [map]. constructor; [|auto].
      intros X. apply N1. apply in_map_iff in X as (p' & E & I). apply filter_In in I as [I _]. rewrite <- E. apply in_map, I.
  Qed.
  Lemma send_batch_flight l ts s s' p bs rest : flight s bs rest -> send_batch l ts s = (s', p) -> flight s' (p :: bs) rest.
  Proof.
    intros FL E. pose proof FL as (B & V & L & M & Bs & R & N).
    pose proof (fun x => flight_later s bs rest x FL) as Lt.
    apply send_batch_spec in E as (F & _ & Vp & Sp & Lp & _ & _ & _ & _ & _ & _ & _ & _ & St & Bt & _).
    destruct F as (_ & _ & _ & _ & _ & Ev & _ & Elo & _).
    unfold flight. rewrite Elo, Lp, Bt, B, St, Ev. split; [reflexivity|]. split; [exact V|]. split; [lia|].
    split. { cbn [map]. rewrite M, Sp. replace (S (r_last_pp s) - snd (r_last_ordered s)) with (S (r_last_pp s - snd (r_last_ordered s))) by lia.
      rewrite seq_S, rev_app_distr. cbn [rev app]. f_equal. lia. }
    split. { intros p' [<-|H]; [split; [exact Vp|left; reflexivity]|]. split; [apply Bs, H|]. right. apply filter_In. split; [apply Bs, H|].
      apply negb_true_iff. destruct (same p p') eqn:Sm; [|reflexivity]. apply key_eq in Sm. injection Sm as _ Sm. destruct (Lt p' H). lia. }
    split; [exact R|]. apply sent_nodup, N.
  Qed.
  Lemma sends_flight ts ls : forall s s' ps bs rest, flight s bs rest -> sends ts ls s = (s', ps) -> flight s' (rev ps ++ bs) rest.
  Proof.
    induction ls as [|l ls IH]; intros s s' ps bs rest FL; cbn [sends]; [intros E; injection E as <- <-; exact FL|].
    destruct (send_batch l ts s) as [s1 p] eqn:E1. destruct (sends ts ls s1) as [s2 ps'] eqn:E2. intros E. injection E as <- <-.
    cbn [rev]. rewrite <- app_assoc. cbn [app]. eapply IH; [|exact E2]. eapply send_batch_flight; eauto.
  Qed.
  Lemma send_flight now ts s s' o bs rest : wf s -> flight s bs rest -> send now ts s = (s', o) -> flight s' (rev o ++ bs) rest.
  Proof.
    intros W FL E. destruct (can_send c s) eqn:Can; [|rewrite send_not in E by exact Can; injection E as <- <-; exact FL].
    destruct (send_spec _ _ _ _ _ W Can E) as (s1 & E1 & N & F & _ & Lp & B & St & _).
    pose proof (sends_flight _ _ _ _ _ _ _ FL E1) as FL1. pose proof (sends_spec _ _ _ _ _ E1) as (F1 & _).
    destruct F as (_ & _ & _ & _ & _ & V & _ & Lo & _). destruct F1 as (_ & _ & _ & _ & _ & V1 & _ & Lo1 & _).
    unfold flight in *. rewrite Lp, B, St, V, Lo, <- V1, <- Lo1. exact FL1.
  Qed.

  Definition in_view (v n0 : nat) (e : event) : Prop := match e with ECaught k => (fst k = v /\ n0 <= snd k) \/ k = (0, 0) | _ => True end.

  Lemma seq_last n m : m > 0 -> rev (seq (S n) m) = rev (seq (S (S n)) (m - 1)) ++ [S n].
  Proof. destruct m as [|m]; [lia|]. intros _. cbn [seq rev]. replace (S m - 1) with m by lia. reflexivity. Qed.
  Lemma order_flight fz s bs rest : flight s bs rest ->
    (get_sent (r_view s, S (snd (r_last_ordered s))) s = None /\ bs = [] /\ order fz s = s) \/
    exists p, get_sent (r_view s, S (snd (r_last_ordered s))) s = Some p /\
      ((exists bs', bs = bs' ++ [p] /\ flight (order fz s) bs' (p :: rest)) \/
       (bs = [] /\ flight (order fz s) [] rest)).
  Proof.
    intros FL. pose proof FL as (B & V & L & M & Bs & R & N). unfold order.
    destruct (Nat.eq_dec (r_last_pp s) (snd (r_last_ordered s))) as [Eq|Ne].
    - assert (E0 : bs = []).
      { rewrite Eq, Nat.sub_diag in M. destruct bs; [reflexivity|discriminate M]. }
      subst bs. destruct (get_sent _ s) as [p|] eqn:G; [right; exists p; split; [reflexivity|]|left; auto].
      right. split; [reflexivity|]. unfold flight.
      cbn [discard_reqs with_queues with_ordered with_fresh r_batches r_last_ordered r_view r_last_pp r_sent fst snd].
      rewrite Eq. split; [exact B|]. split; [lia|]. split; [lia|]. split. { replace (Nat.max (snd (r_last_ordered s)) (S (snd (r_last_ordered s))) - S (snd (r_last_ordered s))) with 0 by lia. reflexivity. }
      split; [intros p' []|]. split; [|exact N]. intros p' H. specialize (R p' H). apply later_not in R. apply later_not. cbn [fst snd]. lia.
    - assert (E0 : exists bs' p, bs = bs' ++ [p]).
      { destruct bs as [|b bs]; [|destruct (exists_last (l := b :: bs)) as (x & y & E); [discriminate|exists x, y; exact E]].
        cbn [map] in M. assert (length (@nil nat) = length (rev (seq (S (snd (r_last_ordered s))) (r_last_pp s - snd (r_last_ordered s))))) as X by (rewrite <- M; reflexivity).
        rewrite rev_length, seq_length in X. cbn in X. lia. }
      destruct E0 as (bs' & p & ->). rewrite map_app in M. cbn [map] in M. rewrite seq_last in M by lia.
      apply app_inj_tail in M as [M1 M2].
      assert (Hp : In p (bs' ++ [p])) by (apply in_or_app; right; left; reflexivity).
      assert (G : get_sent (r_view s, S (snd (r_last_ordered s))) s = Some p).
      { rewrite <- M2, <- (proj1 (Bs p Hp)). apply (get_sent_get s p N). apply Bs, Hp. }
      rewrite G. right. exists p. split; [reflexivity|]. left. exists bs'. split; [reflexivity|]. unfold flight.
      cbn [discard_reqs with_queues with_ordered with_fresh r_batches r_last_ordered r_view r_last_pp r_sent fst snd].
      replace (Nat.max (r_last_pp s) (S (snd (r_last_ordered s)))) with (r_last_pp s) by lia.
      split; [rewrite B, <- app_assoc; reflexivity|]. split; [lia|]. split; [lia|].
      split. { rewrite M1. f_equal. f_equal. lia. }
      split. { intros p' H. apply Bs. apply in_or_app. left. exact H. }
      split; [|exact N]. intros p' [<-|H]; apply later_not; cbn [fst snd key].
      + right. rewrite (proj1 (Bs p Hp)). lia.
      + specialize (R p' H). apply later_not in R. cbn [key fst snd] in R. lia.
  Qed.

  Lemma revert_one_flight s p bs rest : flight s (p :: bs) rest -> flight (revert_one s p) bs rest.
  Proof.
    intros FL. pose proof FL as (B & V & L & M & Bs & R & N). pose proof (flight_later _ _ _ p FL (or_introl eq_refl)) as [_ Lp].
    unfold flight, revert_one. cbn [r_batches r_last_ordered r_view r_last_pp r_sent]. rewrite B. cbn [tl app].
    split; [reflexivity|]. split; [exact V|]. split; [lia|].
    split. { cbn [map] in M. replace (r_last_pp s - snd (r_last_ordered s)) with (S (r_last_pp s - 1 - snd (r_last_ordered s))) in M by lia.
      rewrite seq_S, rev_app_distr in M. cbn [rev app] in M. injection M as _ M. exact M. }
    split; [intros p' H; apply Bs; right; exact H|]. auto.
  Qed.
  Lemma revert_loop_flight bs : forall s rest, flight s bs rest ->
    flight (revert_loop (r_batches s) s) [] rest /\
    (forall l r, In r (queue s l) -> In r (queue (revert_loop (r_batches s) s) l)) /\
    (forall p r, In p bs -> In r (p_reqs p) -> In r (queue (revert_loop (r_batches s) s) (p_lid p))).
  Proof.
    induction bs as [|p bs IH]; intros s rest FL.
    - assert (E : revert_loop (r_batches s) s = s).
      { destruct FL as (B & _ & _ & _ & _ & R & _). rewrite B. cbn [app]. destruct rest as [|p rest]; [reflexivity|].
        cbn [revert_loop]. rewrite (R p (or_introl eq_refl)). reflexivity. }
      rewrite E. split; [exact FL|]. split; [auto|]. intros p r [].
    - pose proof (revert_one_flight _ _ _ _ FL) as FL1. pose proof (flight_later _ _ _ p FL (or_introl eq_refl)) as [Lt _].
      pose proof FL as (B & _ & _ & _ & Bs & _ & N).
      assert (E : revert_loop (r_batches s) s = revert_loop (r_batches (revert_one s p)) (revert_one s p)).
      { rewrite B. cbn [app revert_loop]. rewrite Lt. unfold revert_one at 2. cbn [r_batches]. rewrite B. reflexivity. }
      rewrite E. destruct (IH _ _ FL1) as (A1 & A2 & A3). split; [exact A1|].
      assert (G : get_sent (key p) s = Some p) by (apply get_sent_get; [exact N|apply Bs; left; reflexivity]).
      split.
      + intros l r H. apply A2. rewrite revert_one_queue, G. destruct (l =? p_lid p); [apply adds_in; left|]; exact H.
      + intros p' r [<-|Hp] Hr; [|apply A3; assumption]. apply A2. rewrite revert_one_queue, G, Nat.eqb_refl. apply adds_in. right. exact Hr.
  Qed.

  (** [n0]: the number of the last batch ordered before the view *)
  Definition since (n0 : nat) (s : rep) : Prop := fst (r_last_ordered s) = r_view s \/ snd (r_last_ordered s) = n0.
  Lemma nodup_key_filter (f : pp -> bool) ps : NoDup (map key ps) -> NoDup (map key (filter f ps)).
  Proof.
    induction ps as [|x ps IH]; cbn [filter map]; [constructor|]. intros N. inversion N as [|? ? N1 N2]; subst.
    destruct (f x); [|auto]. cbn [map]. constructor; [|auto].
    intros X. apply N1. apply in_map_iff in X as (p' & E & I). apply filter_In in I as [I _]. rewrite <- E. apply in_map, I.
  Qed.
  Lemma caught_flight n0 k s bs rest : flight s bs rest -> since n0 s -> (fst k = r_view s /\ n0 <= snd k) \/ k = (0, 0) ->
    flight (caught_up k s) (if later (r_last_ordered s) k then filter (fun p => later k (key p)) bs else bs)
      (if later (r_last_ordered s) k then [] else rest).
  Proof.
    intros FL Si K. pose proof FL as (B & V & L & M & Bs & R & N). unfold caught_up.
    destruct (later (r_last_ordered s) k) eqn:Lt; [|exact FL].
    assert (Kv : fst k = r_view s /\ snd (r_last_ordered s) <= snd k).
    { apply later_iff in Lt. destruct K as [K| ->]; [destruct Si; lia|]. cbn [fst snd] in Lt. lia. }
    destruct Kv as [Kv Kn].
    set (ps := filter (fun p => negb (later k (key p))) (r_sent s)).
    pose proof (discards_rest ps (with_ordered k s)) as D. cbn zeta in D.
    destruct D as (_ & _ & _ & _ & _ & D1 & _ & D2 & D3 & _ & _ & D4 & D5 & _).
    unfold flight. cbn [r_batches r_last_ordered r_view r_last_pp r_sent]. rewrite D1, D2, D3, D4, D5.
    cbn [with_ordered r_batches r_last_ordered r_view r_last_pp r_sent]. rewrite B.
    assert (Er : filter (fun p => later k (key p)) rest = []).
    { clear - R Lt. induction rest as [|p rest IH]; [reflexivity|]. cbn [filter].
      assert (later k (key p) = false) as ->.
      { specialize (R p (or_introl eq_refl)). apply later_not in R. apply later_iff in Lt. apply later_not. lia. }
      apply IH. intros p' H. apply R. right. exact H. }
    rewrite filter_app, Er. split; [reflexivity|]. split; [lia|]. split; [lia|].
    split.
    { clear - M Bs Kv Kn L.
      assert (Ef : map p_seq (filter (fun p => later k (key p)) bs) = filter (fun q => snd k <? q) (map p_seq bs)).
      { clear - Bs Kv. induction bs as [|p bs IH]; [reflexivity|]. cbn [filter map].
        assert (later k (key p) = (snd k <? p_seq p)) as ->.
        { destruct (Nat.ltb_spec (snd k) (p_seq p)) as [X|X]; [apply later_iff|apply later_not]; cbn [key fst snd];
            rewrite (proj1 (Bs p (or_introl eq_refl))); lia. }
        destruct (snd k <? p_seq p); cbn [map]; rewrite IH; auto; intros p' H; apply Bs; right; exact H. }
      rewrite Ef, M.
      assert (Fr : forall n m x, filter (fun q => x <? q) (rev (seq (S n) m)) = rev (seq (S (Nat.max n x)) (n + m - Nat.max n x))).
      { intros n m x. induction m as [|m IH]; [replace (n + 0 - Nat.max n x) with 0 by lia; reflexivity|].
        rewrite seq_S, rev_app_distr. cbn [rev app filter]. rewrite IH. cbn [Nat.add]. destruct (Nat.ltb_spec x (S (n + m))) as [Y|Y].
        - replace (n + S m - Nat.max n x) with (S (n + m - Nat.max n x)) by lia. rewrite seq_S, rev_app_distr. cbn [rev app]. f_equal. lia.
        - replace (n + S m - Nat.max n x) with 0 by lia. replace (n + m - Nat.max n x) with 0 by lia. reflexivity. }
      rewrite Fr. f_equal. f_equal; lia. }
    split. { intros p H. apply filter_In in H as [H Hl]. split; [apply Bs, H|]. apply filter_In. split; [apply Bs, H|exact Hl]. }
    split; [intros p []|]. apply nodup_key_filter, N.
  Qed.

  (** *** What holds after every history in a view *)
  Definition inv (n0 v : nat) (s : rep) : Prop :=
    wfq s /\ (exists bs rest, flight s bs rest) /\ since n0 s /\ r_view s = v.
  Lemma send_frame now ts s s' o : wf s -> send now ts s = (s', o) -> frame s s'.
  Proof.
    intros W E. destruct (can_send c s) eqn:Can; [|rewrite send_not in E by exact Can; injection E as <- <-; apply frame_refl].
    destruct (send_spec _ _ _ _ _ W Can E) as (s1 & _ & _ & F & _). exact F.
  Qed.
  (** the parts that no event changes *)
  Lemma step_static s e s' o : wf s -> step s e = (s', o) -> r_master s' = r_master s /\ r_view s' = r_view s /\ r_cert s' = r_cert s.
  Proof.
    intros W. destruct e as [now ts|l r|r|r|fz|t|k|]; cbn [Send_Model.step].
    - intros E. apply send_frame in E; [|exact W]. destruct E as (A & _ & _ & _ & _ & B & C0 & _). auto.
    - intros E. injection E as <- <-. destruct (existsb (Nat.eqb r) (r_known s)); auto.
    - intros E. injection E as <- <-. auto.
    - intros E. injection E as <- <-. auto.
    - intros E. injection E as <- <-. unfold order. destruct (get_sent _ s); auto.
    - intros E. injection E as <- <-. auto.
    - intros E. injection E as <- <-. unfold caught_up. destruct (later (r_last_ordered s) k); [|auto].
      set (ps := filter _ (r_sent s)). pose proof (discards_rest ps (with_ordered k s)) as D. cbn zeta in D.
      cbn [r_master r_view r_cert]. destruct D as (D1 & _ & _ & _ & _ & D2 & D3 & _). rewrite D1, D2, D3. auto.
    - intros E. injection E as <- <-. auto.
  Qed.
  Lemma caught_ordered k s : r_last_ordered (caught_up k s) = if later (r_last_ordered s) k then k else r_last_ordered s.
  Proof.
    unfold caught_up. destruct (later (r_last_ordered s) k); [|reflexivity].
    set (ps := filter _ (r_sent s)). pose proof (discards_rest ps (with_ordered k s)) as D. cbn zeta in D. cbn [r_last_ordered].
    destruct D as (_ & _ & _ & _ & _ & _ & _ & _ & D & _). rewrite D. reflexivity.
  Qed.
  Lemma step_inv n0 v s e s' o : inv n0 v s -> in_view v n0 e -> step s e = (s', o) -> inv n0 v s'.
  Proof.
    intros (W & (bs & rest & FL) & Si & Ev) IV E. pose proof (step_static _ _ _ _ (proj1 W) E) as (_ & Ev' & _).
    split; [eapply step_wf; eauto|]. split; [|split; [|congruence]].
    - destruct e as [now ts|l r|r|r|fz|t|k|]; cbn [Send_Model.step] in E.
      + exists (rev o ++ bs), rest. eapply send_flight; eauto. apply W.
      + injection E as <- <-. exists bs, rest. destruct (existsb (Nat.eqb r) (r_known s)); exact FL.
      + injection E as <- <-. exists bs, rest. exact FL.
      + injection E as <- <-. exists bs, rest. exact FL.
      + injection E as <- <-. destruct (order_flight fz _ _ _ FL) as [(_ & _ & ->)|(p & _ & [(bs' & _ & F)|(_ & F)])]; eauto.
      + injection E as <- <-. exists [], rest. destruct (revert_loop_flight _ _ _ FL) as (F & _).
        unfold flight in *. unfold revert. cbn [r_batches r_last_ordered r_view r_last_pp r_sent].
        pose proof (revert_loop_rest (r_batches s) s) as X. cbn zeta in X. destruct X as (_ & _ & X & _). rewrite <- X. exact F.
      + injection E as <- <-. cbn [in_view] in IV. rewrite <- Ev in IV. eexists. eexists. exact (caught_flight n0 k _ _ _ FL Si IV).
      + injection E as <- <-. exists bs, rest. exact FL.
    - unfold since in *. rewrite Ev'. destruct e as [now ts|l r|r|r|fz|t|k|]; cbn [Send_Model.step] in E.
      + apply send_frame in E; [|apply W]. destruct E as (_ & _ & _ & _ & _ & _ & _ & Lo & _). rewrite Lo. exact Si.
      + injection E as <- <-. destruct (existsb (Nat.eqb r) (r_known s)); exact Si.
      + injection E as <- <-. exact Si.
      + injection E as <- <-. exact Si.
      + injection E as <- <-. unfold order. destruct (get_sent _ s); [|exact Si]. left. reflexivity.
      + injection E as <- <-. unfold revert. cbn [r_last_ordered].
        pose proof (revert_loop_rest (r_batches s) s) as X. cbn zeta in X. destruct X as (_ & _ & _ & _ & X & _). rewrite X. exact Si.
      + injection E as <- <-. rewrite caught_ordered. cbn [in_view] in IV. destruct (later (r_last_ordered s) k) eqn:Lt; [|exact Si]. left.
        destruct IV as [[A _]| ->]; [congruence|]. apply later_iff in Lt. cbn [fst snd] in Lt. lia.
      + injection E as <- <-. exact Si.
  Qed.
  Lemma run_inv n0 v es : forall s s' o, inv n0 v s -> Forall (in_view v n0) es -> run s es = (s', o) -> inv n0 v s'.
  Proof.
    induction es as [|e es IH]; intros s s' o I F; cbn [Send_Model.run]; [intros E; injection E as <- <-; exact I|].
    inversion F as [|? ? F1 F2]; subst. destruct (step s e) as [s1 o1] eqn:E1. destruct (run s1 es) as [s2 o2] eqn:E2. intros E. injection E as <- <-.
    eapply IH; [|exact F2|exact E2]. eapply step_inv; eauto.
  Qed.

  (** *** Requests are not lost *)
  Definition held (s : rep) (l r : nat) : Prop :=
    In r (queue s l) \/ exists p, In p (r_batches s) /\ later (r_last_ordered s) (key p) = true /\ p_lid p = l /\ In r (p_reqs p).
  (** the event settles the batch: it is ordered, here or, as a catch-up shows, elsewhere *)
  Definition settling (s : rep) (e : event) (p : pp) : Prop :=
    match e with
    | EOrder _ => key p = (r_view s, S (snd (r_last_ordered s)))
    | ECaught k => later (r_last_ordered s) k = true /\ later k (key p) = false
    | _ => False
    end.
  Definition malicious (s : rep) (r : nat) : Prop := r_master s = true /\ exists ap tm, verdict_of ap tm r = Malicious.
  Lemma step_held n0 v s e s' o l r : inv n0 v s -> in_view v n0 e -> step s e = (s', o) -> In r (r_known s) -> held s l r ->
    held s' l r \/ malicious s r \/ exists p, In p (r_sent s) /\ settling s e p /\ p_lid p = l /\ In r (p_reqs p).
  Proof.
    intros (W & (bs & rest & FL) & Si & Ev) IV E Kn H. unfold held in *.
    destruct e as [now ts|l0 r0|r0|r0|fz|t|k|]; cbn [Send_Model.step] in E.
    - destruct (can_send c s) eqn:Can; [|rewrite send_not in E by exact Can; injection E as <- <-; left; exact H].
      destruct (send_spec _ _ _ _ _ (proj1 W) Can E) as (s1 & E1 & N & F & Eq & _ & B & _).
      pose proof (sends_spec _ _ _ _ _ E1) as (F1 & Ls & _ & _ & Vs & O & _ & _ & _ & B1 & _).
      pose proof (sends_flight _ _ _ _ _ _ _ FL E1) as FL1.
      destruct F as (_ & _ & _ & _ & _ & _ & _ & Lo & _). destruct F1 as (_ & _ & _ & _ & _ & _ & _ & Lo1 & _).
      destruct H as [H|(p & Hp & Hl & X)].
      + destruct (in_dec Nat.eq_dec l (targets now ts s)) as [I|I].
        * rewrite <- Ls in I. apply in_map_iff in I as (p & El & Hp).
          destruct (sends_takes _ _ _ _ _ N E1 p Hp) as (d & Ed & _ & D & _). rewrite El in Ed. rewrite Ed in H.
          apply in_app_or in H as [H|H]; [|left; left; unfold queue in *; rewrite Eq; exact H].
          destruct (D r H) as [X|[X|X]]; [|contradiction|right; left; exact X].
          left. right. exists p. rewrite B, B1. split; [apply in_or_app; left; apply in_rev; rewrite rev_involutive; exact Hp|].
          split; [|auto]. rewrite Lo, <- Lo1. apply (flight_later _ _ _ p FL1). apply in_or_app. left. apply in_rev. rewrite rev_involutive. exact Hp.
        * left. left. rewrite <- (O l I) in H. unfold queue in *. rewrite Eq. exact H.
      + left. right. exists p. rewrite B, B1, Lo. split; [apply in_or_app; right; exact Hp|]. auto.
    - left. injection E as <- <-. destruct (existsb (Nat.eqb r0) (r_known s)); [|exact H]. destruct H as [H|H]; [left|right; exact H].
      rewrite queue_with_queues. destruct (Nat.eqb_spec l l0) as [->|]; [apply add_in; right|]; exact H.
    - left. injection E as <- <-. exact H.
    - left. injection E as <- <-. exact H.
    - injection E as <- <-. destruct (order_flight fz _ _ _ FL) as [(_ & _ & ->)|(p & G & Alt)]; [left; exact H|].
      pose proof (get_sent_in _ _ _ G) as [Gi Gk].
      destruct H as [H|(p' & Hp & Hl & X)].
      + assert (Q : queue (order fz s) l = if l =? p_lid p then fold_left (fun q r => os_discard r q) (p_reqs p) (queue s l) else queue s l).
        { unfold order. rewrite G. rewrite discard_reqs_queue. reflexivity. }
        rewrite Q. destruct (Nat.eqb_spec l (p_lid p)) as [->|]; [|auto].
        destruct (in_dec Nat.eq_dec r (p_reqs p)) as [I|I]; [|left; left; apply discard_in; auto].
        right. right. exists p. cbn [settling]. auto.
      + pose proof (flight_in _ _ _ p' FL Hp Hl) as Hb. destruct Alt as [(bs' & -> & F)|(-> & _)]; [|destruct Hb].
        apply in_app_or in Hb as [Hb|[<-|[]]].
        * left. right. exists p'. split; [destruct F as (-> & _); apply in_or_app; left; exact Hb|]. split; [eapply flight_later; eauto|exact X].
        * right. right. exists p. cbn [settling]. split; [exact Gi|]. split; [exact Gk|]. exact X.
    - left. left. injection E as <- <-. destruct (revert_loop_flight _ _ _ FL) as (_ & A & B).
      change (In r (queue (revert_loop (r_batches s) s) l)). destruct H as [H|(p & Hp & Hl & <- & X)]; [apply A, H|].
      apply B; [eapply flight_in; eauto|exact X].
    - injection E as <- <-. unfold caught_up. destruct (later (r_last_ordered s) k) eqn:Lt; [|left; exact H].
      set (ps := filter (fun p => negb (later k (key p))) (r_sent s)).
      pose proof (discards_rest ps (with_ordered k s)) as D. cbn zeta in D.
      destruct D as (_ & _ & _ & _ & _ & _ & _ & _ & D3 & _ & _ & D4 & D5 & _).
      destruct H as [H|(p & Hp & Hl & X)].
      + destruct (discards_queue ps (with_ordered k s) l) as [_ B]. destruct (B r H) as [Y|(p & Hp & El & Hr)].
        * left. left. exact Y.
        * right. right. apply filter_In in Hp as [Hp Nl]. apply negb_true_iff in Nl. exists p. cbn [settling]. auto.
      + destruct (later k (key p)) eqn:Lk.
        * left. right. exists p. cbn [r_batches r_last_ordered]. rewrite D3, D5. cbn [with_ordered r_batches r_last_ordered].
          split; [apply filter_In; auto|]. split; [exact Lk|exact X].
        * right. right. exists p. cbn [settling]. split; [|auto]. pose proof FL as (_ & _ & _ & _ & Bs & _). apply Bs. eapply flight_in; eauto.
    - left. injection E as <- <-. exact H.
  Qed.

  Lemma step_known s e s' o r : wf s -> step s e = (s', o) -> In r (r_known s) -> In r (r_known s') \/ e = EFree r.
  Proof.
    intros W. destruct e as [now ts|l r0|r0|r0|fz|t|k|]; cbn [Send_Model.step].
    - intros E K. apply send_frame in E; [|exact W]. destruct E as (_ & _ & _ & _ & _ & _ & _ & _ & A & _). left. rewrite A. exact K.
    - intros E K. injection E as <- <-. left. destruct (existsb (Nat.eqb r0) (r_known s)); exact K.
    - intros E K. injection E as <- <-. left. right. exact K.
    - intros E K. injection E as <- <-. destruct (Nat.eq_dec r r0) as [->|Ne]; [right; reflexivity|]. left. cbn [with_known r_known].
      apply filter_In. split; [exact K|]. apply negb_true_iff, Nat.eqb_neq. exact Ne.
    - intros E K. injection E as <- <-. left. unfold order. destruct (get_sent _ s); exact K.
    - intros E K. injection E as <- <-. left. unfold revert. cbn [r_known].
      pose proof (revert_loop_rest (r_batches s) s) as X. cbn zeta in X. destruct X as (_ & _ & _ & _ & _ & _ & X & _). rewrite X. exact K.
    - intros E K. injection E as <- <-. left. unfold caught_up. destruct (later (r_last_ordered s) k); [|exact K].
      set (ps := filter _ (r_sent s)). pose proof (discards_rest ps (with_ordered k s)) as D. cbn zeta in D. cbn [r_known].
      destruct D as (_ & _ & _ & _ & _ & _ & _ & _ & _ & _ & D & _). rewrite D. exact K.
    - intros E K. injection E as <- <-. left. exact K.
  Qed.
  Lemma run_held n0 v l r es : forall s s' o, inv n0 v s -> Forall (in_view v n0) es -> run s es = (s', o) -> In r (r_known s) -> held s l r ->
    held s' l r \/ In (EFree r) es \/ malicious s r \/
    exists ea e eb p, es = ea ++ e :: eb /\ In p (r_sent (fst (run s ea))) /\ settling (fst (run s ea)) e p /\ p_lid p = l /\ In r (p_reqs p).
  Proof.
    induction es as [|e es IH]; intros s s' o I F; cbn [Send_Model.run]; [intros E Kn H; injection E as <- <-; left; exact H|].
    inversion F as [|? ? F1 F2]; subst. destruct (step s e) as [s1 o1] eqn:E1. destruct (run s1 es) as [s2 o2] eqn:E2. intros E Kn H. injection E as <- <-.
    destruct (step_known _ _ _ _ _ (proj1 (proj1 I)) E1 Kn) as [Kn'| ->]; [|right; left; left; reflexivity].
    destruct (step_held _ _ _ _ _ _ _ _ I F1 E1 Kn H) as [H'|[H'|(p & P1 & P2 & P3)]].
    - destruct (IH _ _ _ (step_inv _ _ _ _ _ _ I F1 E1) F2 E2 Kn' H') as [X|[X|[X|(ea & e' & eb & p & X & Y)]]]; auto.
      + right. left. right. exact X.
      + right. right. left. unfold malicious in *. destruct (step_static _ _ _ _ (proj1 (proj1 I)) E1) as [A _]. rewrite A in X. exact X.
      + right. right. right. exists (e :: ea), e', eb, p. rewrite X. split; [reflexivity|]. cbn [Send_Model.run]. rewrite E1.
        destruct (run s1 ea) as [s3 o3] eqn:E3. cbn [fst] in *. exact Y.
    - auto.
    - right. right. right. exists [], e, es, p. split; [reflexivity|]. cbn [Send_Model.run fst]. auto.
  Qed.

  (** *** The newest batch of a number *)
  Definition newest (o : list pp) (p : pp) : Prop := exists a b, o = a ++ p :: b /\ forall p', In p' b -> key p' <> key p.
  Lemma newest_app o p p' : newest o p -> key p' <> key p -> newest (o ++ [p']) p.
  Proof.
    intros (a & b & -> & N) K. exists a, (b ++ [p']). split; [rewrite <- app_assoc; reflexivity|]. intros x H. apply in_app_or in H as [H|[<-|[]]]; auto.
  Qed.
  Lemma sends_newest ts ls : forall s s' ps o, sends ts ls s = (s', ps) -> (forall p, In p (r_sent s) -> newest o p) ->
    forall p, In p (r_sent s') -> newest (o ++ ps) p.
  Proof.
    induction ls as [|l ls IH]; intros s s' ps o; cbn [sends]; [intros E; injection E as <- <-; rewrite app_nil_r; auto|].
    destruct (send_batch l ts s) as [s1 p0] eqn:E1. destruct (sends ts ls s1) as [s2 ps'] eqn:E2. intros E N. injection E as <- <-.
    replace (o ++ p0 :: ps') with ((o ++ [p0]) ++ ps') by (rewrite <- app_assoc; reflexivity). eapply IH; [exact E2|].
    apply send_batch_spec in E1 as (_ & _ & _ & _ & _ & _ & _ & _ & _ & _ & _ & _ & _ & St & _). rewrite St.
    intros p [<-|H]; [exists o, []; split; [reflexivity|intros ? []]|]. apply filter_In in H as [H Sm]. apply newest_app; [auto|].
    apply negb_true_iff in Sm. intros K. apply key_eq in K. congruence.
  Qed.
  Lemma step_newest s e s' o1 o : wf s -> step s e = (s', o1) -> (forall p, In p (r_sent s) -> newest o p) ->
    forall p, In p (r_sent s') -> newest (o ++ o1) p.
  Proof.
    intros W. destruct e as [now ts|l r0|r0|r0|fz|t|k|]; cbn [Send_Model.step].
    - intros E N. destruct (can_send c s) eqn:Can; [|rewrite send_not in E by exact Can; injection E as <- <-; rewrite app_nil_r; exact N].
      destruct (send_spec _ _ _ _ _ W Can E) as (s1 & E1 & _ & _ & _ & _ & _ & St & _). rewrite St. eapply sends_newest; eauto.
    - intros E N. injection E as <- <-. rewrite app_nil_r. destruct (existsb (Nat.eqb r0) (r_known s)); exact N.
    - intros E N. injection E as <- <-. rewrite app_nil_r. exact N.
    - intros E N. injection E as <- <-. rewrite app_nil_r. exact N.
    - intros E N. injection E as <- <-. rewrite app_nil_r. unfold order. destruct (get_sent _ s); exact N.
    - intros E N. injection E as <- <-. rewrite app_nil_r. unfold revert. cbn [r_sent].
      pose proof (revert_loop_rest (r_batches s) s) as X. cbn zeta in X. destruct X as (_ & _ & _ & _ & _ & _ & _ & X). rewrite X. exact N.
    - intros E N. injection E as <- <-. rewrite app_nil_r. unfold caught_up. destruct (later (r_last_ordered s) k); [|exact N].
      set (ps := filter _ (r_sent s)). pose proof (discards_rest ps (with_ordered k s)) as D. cbn zeta in D. cbn [r_sent].
      destruct D as (_ & _ & _ & _ & _ & _ & _ & _ & _ & _ & _ & D & _). rewrite D. intros p H. apply filter_In in H as [H _]. apply N, H.
    - intros E N. injection E as <- <-. rewrite app_nil_r. exact N.
  Qed.
  Lemma run_newest es : forall s s' o1 o, wfq s -> run s es = (s', o1) -> (forall p, In p (r_sent s) -> newest o p) ->
    forall p, In p (r_sent s') -> newest (o ++ o1) p.
  Proof.
    induction es as [|e es IH]; intros s s' o1 o W; cbn [Send_Model.run]; [intros E; injection E as <- <-; rewrite app_nil_r; auto|].
    destruct (step s e) as [s1 oa] eqn:E1. destruct (run s1 es) as [s2 ob] eqn:E2. intros E N. injection E as <- <-.
    rewrite app_assoc. eapply IH; [|exact E2|]; [eapply step_wf; eauto|]. eapply step_newest; eauto. apply W.
  Qed.

  (** *** The order of requests, without reverts *)
  Definition proposed (l : nat) (o : list pp) : list nat := flat_map (fun p => if p_lid p =? l then p_reqs p else []) o.
  Definition readied (l : nat) (es : list event) : list nat :=
    flat_map (fun e => match e with EReady l' r => if l' =? l then [r] else [] | _ => [] end) es.
  Definition no_revert (e : event) : Prop := match e with ERevert _ => False | _ => True end.

  Lemma sends_proposed ts ls : forall s s' ps l, NoDup ls -> sends ts ls s = (s', ps) -> sub (proposed l ps ++ queue s' l) (queue s l).
  Proof.
    induction ls as [|l0 ls IH]; intros s s' ps l N; cbn [sends]; [intros E; injection E as <- <-; apply sub_refl|].
    inversion N as [|? ? N1 N2]; subst.
    destruct (send_batch l0 ts s) as [s1 p0] eqn:E1. destruct (sends ts ls s1) as [s2 ps'] eqn:E2. intros E. injection E as <- <-.
    pose proof (IH _ _ _ l N2 E2) as X.
    apply send_batch_spec in E1 as (_ & El & _ & _ & _ & _ & _ & (d & Ed & Sd & _) & O & _).
    unfold proposed in *. cbn [flat_map]. rewrite El in *. destruct (Nat.eqb_spec l0 l) as [->|Ne].
    - rewrite Ed, <- app_assoc. apply sub_app; [exact Sd|exact X].
    - rewrite <- (O l) by congruence. exact X.
  Qed.
  Lemma step_proposed s e s' o l : wf s -> no_revert e -> step s e = (s', o) ->
    sub (proposed l o ++ queue s' l) (queue s l ++ readied l [e]).
  Proof.
    intros W NR. destruct e as [now ts|l0 r0|r0|r0|fz|t|k|]; cbn [Send_Model.step]; cbn [readied flat_map app]; rewrite ?app_nil_r.
    - intros E. destruct (can_send c s) eqn:Can; [|rewrite send_not in E by exact Can; injection E as <- <-; apply sub_refl].
      destruct (send_spec _ _ _ _ _ W Can E) as (s1 & E1 & N & _ & Eq & _).
      replace (queue s' l) with (queue s1 l) by (unfold queue; rewrite Eq; reflexivity). eapply sends_proposed; eauto.
    - intros E. injection E as <- <-. cbn [proposed flat_map app]. destruct (existsb (Nat.eqb r0) (r_known s)); [|apply sub_app_r].
      rewrite queue_with_queues, (Nat.eqb_sym l l0). destruct (Nat.eqb_spec l0 l) as [->|]; [|rewrite app_nil_r; apply sub_refl].
      unfold add. destruct (existsb (Nat.eqb r0) (queue s l)); [apply sub_app_r|apply sub_refl].
    - intros E. injection E as <- <-. apply sub_refl.
    - intros E. injection E as <- <-. apply sub_refl.
    - intros E. injection E as <- <-. cbn [proposed flat_map app]. unfold order. destruct (get_sent _ s) as [p|]; [|apply sub_refl].
      rewrite discard_reqs_queue. destruct (l =? p_lid p); [apply discard_sub|apply sub_refl].
    - destruct NR.
    - intros E. injection E as <- <-. cbn [proposed flat_map app]. unfold caught_up. destruct (later (r_last_ordered s) k); [|apply sub_refl].
      apply (discards_queue (filter (fun p => negb (later k (key p))) (r_sent s)) (with_ordered k s) l).
    - intros E. injection E as <- <-. apply sub_refl.
  Qed.
  Lemma run_proposed es : forall s s' o l, wfq s -> Forall no_revert es -> run s es = (s', o) ->
    sub (proposed l o ++ queue s' l) (queue s l ++ readied l es).
  Proof.
    induction es as [|e es IH]; intros s s' o l W NR; cbn [Send_Model.run].
    - intros E. injection E as <- <-. cbn. rewrite app_nil_r. apply sub_refl.
    - inversion NR as [|? ? N1 N2]; subst. destruct (step s e) as [s1 o1] eqn:E1. destruct (run s1 es) as [s2 o2] eqn:E2. intros E. injection E as <- <-.
      pose proof (step_proposed _ _ _ _ l (proj1 W) N1 E1) as A. pose proof (IH _ _ _ l (step_wf _ _ _ _ W E1) N2 E2) as B.
      unfold proposed, readied in *. rewrite flat_map_app, <- app_assoc. cbn [flat_map] in *. rewrite app_nil_r in A.
      eapply sub_trans; [apply sub_app; [apply sub_refl|exact B]|].
      rewrite !app_assoc. apply sub_app; [exact A|apply sub_refl].
  Qed.

  (** *** The numbers of batches, without reverts *)
  Fixpoint increasing (n : nat) (l : list nat) : Prop := match l with [] => True | x :: l' => n < x /\ increasing x l' end.
  Lemma increasing_weaken n n' l : n' <= n -> increasing n l -> increasing n' l.
  Proof. destruct l; cbn; [auto|]. intros ? [? ?]; split; [lia|auto]. Qed.
  Lemma increasing_seq k : forall n l, increasing (n + k) l -> increasing n (seq (S n) k ++ l).
  Proof.
    induction k as [|k IH]; intros n l H; cbn [seq app]; [rewrite Nat.add_0_r in H; exact H|]. split; [lia|]. apply IH.
    replace (S n + k) with (n + S k) by lia. exact H.
  Qed.
  Lemma step_last_pp s e s' o : wf s -> no_revert e -> step s e = (s', o) -> 
    map p_seq o = seq (S (r_last_pp s)) (length o) /\ r_last_pp s + length o <= r_last_pp s' /\ (forall p, In p o -> p_view p = r_view s).
  Proof.
    intros W NR. destruct e as [now ts|l0 r0|r0|r0|fz|t|k|]; cbn [Send_Model.step].
    - intros E. destruct (can_send c s) eqn:Can; [|rewrite send_not in E by exact Can; injection E as <- <-; cbn; split; [reflexivity|split; [lia|intros ? []]]].
      destruct (send_spec _ _ _ _ _ W Can E) as (s1 & E1 & _ & _ & _ & Lp & _).
      apply sends_spec in E1 as (_ & Ls & Sq & Lp1 & V & _). assert (length (targets now ts s) = length o) as EL by (rewrite <- Ls, map_length; reflexivity).
      rewrite EL in *. split; [exact Sq|]. split; [lia|exact V].
    - intros E. injection E as <- <-. cbn. split; [reflexivity|]. split; [destruct (existsb _ _); cbn; lia|intros ? []].
    - intros E. injection E as <- <-. cbn. split; [reflexivity|]. split; [lia|intros ? []].
    - intros E. injection E as <- <-. cbn. split; [reflexivity|]. split; [lia|intros ? []].
    - intros E. injection E as <- <-. split; [reflexivity|]. split; [|intros ? []]. unfold order. destruct (get_sent _ s); cbn; lia.
    - destruct NR.
    - intros E. injection E as <- <-. split; [reflexivity|]. split; [|intros ? []]. unfold caught_up. destruct (later (r_last_ordered s) k); [|cbn; lia].
      set (ps := filter _ (r_sent s)). pose proof (discards_rest ps (with_ordered k s)) as D. cbn zeta in D. cbn [r_last_pp].
      destruct D as (_ & _ & _ & _ & _ & _ & _ & D & _). rewrite D. cbn [with_ordered r_last_pp length]. lia.
    - intros E. injection E as <- <-. cbn. split; [reflexivity|]. split; [lia|intros ? []].
  Qed.
  Lemma run_increasing es : forall s s' o, wfq s -> Forall no_revert es -> run s es = (s', o) ->
    increasing (r_last_pp s) (map p_seq o) /\ forall p, In p o -> p_view p = r_view s.
  Proof.
    induction es as [|e es IH]; intros s s' o W NR; cbn [Send_Model.run]; [intros E; injection E as <- <-; split; [exact Logic.I|intros ? []]|].
    inversion NR as [|? ? N1 N2]; subst. destruct (step s e) as [s1 o1] eqn:E1. destruct (run s1 es) as [s2 o2] eqn:E2. intros E. injection E as <- <-.
    destruct (step_last_pp _ _ _ _ (proj1 W) N1 E1) as (A & B & C0). destruct (IH _ _ _ (step_wf _ _ _ _ W E1) N2 E2) as [D F].
    split.
    - rewrite map_app, A. apply increasing_seq. eapply increasing_weaken; [exact B|exact D].
    - intros p H. apply in_app_or in H as [H|H]; [auto|]. rewrite (F p H). apply (step_static _ _ _ _ (proj1 W) E1).
  Qed.

  (** *** The number of batches in flight *)
  Definition ledgers_of (e : event) : list nat := match e with EReady l _ => [l] | _ => [] end.
  Definition confined (L : list nat) (s : rep) : Prop :=
    In DOMAIN L /\ incl (map fst (r_queues s)) L /\ incl (map fst (r_fresh s)) L /\ (forall p, In p (r_sent s) \/ In p (r_batches s) -> In (p_lid p) L).
  Definition in_order (s : rep) : Prop := fst (r_last_ordered s) = r_view s \/ r_cert s = snd (r_last_ordered s).

  Lemma targets_in now ts s l : wf s -> In l (targets now ts s) ->
    (In l (map fst (r_queues s)) /\ due c now l s = true) \/
    (update c = true /\ r_master s = true /\ stale ts (r_fresh s) l) \/
    (r_needed s = true /\ l = DOMAIN /\ (forall l', In l' (map fst (r_queues s)) -> due c now l' s = false) /\
     (update c && r_master s = true -> forall l', ~ stale ts (r_fresh s) l')).
  Proof.
    intros W. unfold targets. set (a := filter _ (map fst (r_queues s))).
    set (b := if update c && r_master s then _ else _). intros H.
    assert (Ha : forall x, In x a -> In x (map fst (r_queues s)) /\ due c now x s = true) by (intros x Hx; apply filter_In in Hx; exact Hx).
    assert (Hb : forall x, In x b -> update c = true /\ r_master s = true /\ stale ts (r_fresh s) x).
    { intros x Hx. unfold b in Hx. destruct (update c), (r_master s); cbn [andb] in Hx; try destruct Hx. apply filter_In in Hx as [Hx _].
      split; [reflexivity|]. split; [reflexivity|]. apply check_in; [apply W|exact Hx]. }
    destruct (a ++ b) as [|x y] eqn:E.
    - destruct (r_needed s); [|destruct H]. destruct H as [<-|[]]. right. right. split; [reflexivity|]. split; [reflexivity|].
      apply app_eq_nil in E as [Ea Eb]. split.
      + intros l' Hl. destruct (due c now l' s) eqn:Du; [|reflexivity]. assert (I : In l' a) by (apply filter_In; auto). rewrite Ea in I. destruct I.
      + intros U l' St. assert (I : In l' b).
        { unfold b. rewrite U. apply filter_In. split; [apply check_in; [apply W|exact St]|]. rewrite Ea. reflexivity. }
        rewrite Eb in I. destruct I.
    - rewrite <- E in H. apply in_app_or in H as [H|H]; auto.
  Qed.
  Lemma targets_due now ts s l : In l (map fst (r_queues s)) -> due c now l s = true -> In l (targets now ts s).
  Proof.
    intros H D. unfold targets. set (a := filter _ (map fst (r_queues s))). set (b := if update c && r_master s then _ else _).
    assert (I : In l (a ++ b)) by (apply in_or_app; left; apply filter_In; auto). destruct (a ++ b); [destruct I|exact I].
  Qed.
  Lemma targets_stale now ts s l : wf s -> update c = true -> r_master s = true -> stale ts (r_fresh s) l -> In l (targets now ts s).
  Proof.
    intros W U M St. unfold targets. set (a := filter _ (map fst (r_queues s))). rewrite U, M. cbn [andb].
    set (b := filter _ (snd (check_freshness _ _ _))). assert (I : In l (a ++ b)).
    { destruct (existsb (Nat.eqb l) a) eqn:X; apply in_or_app; [left; apply mem_in, X|right]. apply filter_In. split; [apply check_in; [apply W|exact St]|]. rewrite X. reflexivity. }
    destruct (a ++ b); [destruct I|exact I].
  Qed.
  Lemma targets_length L now ts s : wf s -> confined L s -> NoDup (targets now ts s) -> length (targets now ts s) <= length L.
  Proof.
    intros W (D & Q & F & _) N. apply NoDup_incl_length; [exact N|]. intros l H.
    destruct (targets_in _ _ _ _ W H) as [[A _]|[(_ & _ & u & m & A & _)|(_ & -> & _)]]; [apply Q, A| |exact D].
    apply F. apply get_in in A. apply (in_map fst) in A. exact A.
  Qed.

  Lemma step_confined L s e s' o : wf s -> incl (ledgers_of e) L -> confined L s -> step s e = (s', o) -> confined L s'.
  Proof.
    intros W IL Cf. pose proof Cf as (D & Q & F & B). destruct e as [now ts|l0 r0|r0|r0|fz|t|k|]; cbn [Send_Model.step].
    - intros E. destruct (can_send c s) eqn:Can; [|rewrite send_not in E by exact Can; injection E as <- <-; exact Cf].
      destruct (send_spec _ _ _ _ _ W Can E) as (s1 & E1 & N & _ & Eq & _ & Bt & St & _ & _ & Fr & _).
      assert (T : incl (targets now ts s) L).
      { intros l H. destruct (targets_in _ _ _ _ W H) as [[A _]|[(_ & _ & u & m & A & _)|(_ & -> & _)]]; [apply Q, A| |exact D].
        apply F. apply get_in in A. apply (in_map fst) in A. exact A. }
      pose proof (sends_spec _ _ _ _ _ E1) as (_ & Ls & _ & _ & _ & _ & _ & _ & _ & B1 & K1).
      assert (S1 : forall p, In p (r_sent s1) -> In p (r_sent s) \/ In (p_lid p) L).
      { clear - E1 T. revert E1 T. generalize (targets now ts s). intros ls. revert s s1 o. induction ls as [|l ls IH]; intros s s1 o; cbn [sends].
        - intros E. injection E as <- <-. auto.
        - destruct (send_batch l ts s) as [s2 p0] eqn:E2. destruct (sends ts ls s2) as [s3 ps] eqn:E3. intros E T. injection E as <- <-.
          intros p H. destruct (IH _ _ _ E3 (fun x Hx => T x (or_intror Hx)) p H) as [X|X]; [|auto].
          apply send_batch_spec in E2 as (_ & El & _ & _ & _ & _ & _ & _ & _ & _ & _ & _ & _ & St & _). rewrite St in X.
          destruct X as [<-|X]; [right; rewrite El; apply T; left; reflexivity|]. apply filter_In in X as [X _]. auto. }
      split; [exact D|]. split; [|split].
      + rewrite Eq. intros l H. apply K1 in H as [H|H]; auto.
      + rewrite Fr. destruct (update c && r_master s); [rewrite check_keys|]; exact F.
      + rewrite St, Bt, B1. intros p [H|H].
        * destruct (S1 p H) as [X|X]; [apply B; auto|exact X].
        * apply in_app_or in H as [H|H]; [|apply B; auto]. apply T. rewrite <- Ls. apply in_map. apply in_rev in H. exact H.
    - intros E. injection E as <- <-. destruct (existsb (Nat.eqb r0) (r_known s)); [|exact Cf]. split; [exact D|]. split; [|auto].
      cbn [with_queues r_queues]. intros l H. apply set_keys in H as [->|H]; [apply IL; left; reflexivity|apply Q, H].
    - intros E. injection E as <- <-. exact Cf.
    - intros E. injection E as <- <-. exact Cf.
    - intros E. injection E as <- <-. unfold order. destruct (get_sent _ s) as [p|] eqn:G; [|exact Cf]. apply get_sent_in in G as [G _].
      split; [exact D|]. split; [|split; [|exact B]].
      + cbn [discard_reqs with_queues r_queues]. intros l H. apply set_keys in H as [->|H]; [apply B; auto|apply Q, H].
      + cbn [discard_reqs with_queues with_ordered with_fresh r_fresh]. 
        assert (Rm : forall ls f, incl (map fst f) L -> incl (map fst (remove_ledgers ls f)) L).
        { unfold remove_ledgers. induction ls as [|l ls IH]; intros f Hf; cbn [fold_left]; [exact Hf|]. apply IH. intros x Hx.
          apply in_map_iff in Hx as (y & <- & Hy). apply filter_In in Hy as [Hy _]. apply Hf, in_map, Hy. }
        apply Rm. unfold update_freshness. destruct (get (p_lid p) (r_fresh s)) as [[u m]|]; [|exact F].
        intros l H. apply set_keys in H as [->|H]; [apply B; auto|apply F, H].
    - intros E. injection E as <- <-.
      assert (Rv : forall bs s0, (forall p, In p bs -> In (p_lid p) L) -> incl (map fst (r_queues s0)) L -> (forall p, In p (r_batches s0) -> In (p_lid p) L) ->
        incl (map fst (r_queues (revert_loop bs s0))) L /\ (forall p, In p (r_batches (revert_loop bs s0)) -> In (p_lid p) L)).
      { induction bs as [|p bs IH]; intros s0 Hb Hq Hbt; cbn [revert_loop]; [auto|]. destruct (later (r_last_ordered s0) (key p)); [|auto].
        apply IH.
        - intros p' H. apply Hb. right. exact H.
        - unfold revert_one. cbn [r_queues]. destruct (get_sent (key p) s0); [|exact Hq]. cbn [with_queues r_queues]. intros l H.
          apply set_keys in H as [->|H]; [apply Hb; left; reflexivity|apply Hq, H].
        - unfold revert_one. cbn [r_batches]. intros p' H. apply Hbt. destruct (r_batches s0); [destruct H|right; exact H]. }
      destruct (Rv (r_batches s) s) as [R1 R2]; [intros p H; apply B; auto|exact Q|intros p H; apply B; auto|].
      pose proof (revert_loop_rest (r_batches s) s) as X. cbn zeta in X. destruct X as (_ & _ & _ & _ & _ & X1 & _ & X2).
      unfold confined, revert. cbn [r_queues r_fresh r_sent r_batches]. rewrite X1, X2. split; [exact D|]. split; [exact R1|]. split; [exact F|].
      intros p [H|H]; [apply B; auto|apply R2, H].
    - intros E. injection E as <- <-. unfold caught_up. destruct (later (r_last_ordered s) k); [|exact Cf].
      set (ps := filter _ (r_sent s)). pose proof (discards_rest ps (with_ordered k s)) as X. cbn zeta in X.
      destruct X as (_ & _ & _ & _ & _ & _ & _ & _ & _ & X1 & _ & X2 & X3 & _).
      unfold confined. cbn [r_queues r_fresh r_sent r_batches]. rewrite X1, X2, X3. split; [exact D|]. split; [|split; [exact F|]].
      + assert (Ds : forall ps0 s0, (forall p, In p ps0 -> In (p_lid p) L) -> incl (map fst (r_queues s0)) L ->
          incl (map fst (r_queues (fold_left (fun s p => discard_reqs p s) ps0 s0))) L).
        { induction ps0 as [|p ps0 IH]; intros s0 Hp Hq; cbn [fold_left]; [exact Hq|]. apply IH; [intros p' H; apply Hp; right; exact H|].
          cbn [discard_reqs with_queues r_queues]. intros l H. apply set_keys in H as [->|H]; [apply Hp; left; reflexivity|apply Hq, H]. }
        apply Ds; [|exact Q]. intros p H. apply filter_In in H as [H _]. apply B. auto.
      + cbn [with_ordered r_sent r_batches]. intros p [H|H]; apply filter_In in H as [H _]; apply B; auto.
    - intros E. injection E as <- <-. exact Cf.
  Qed.

  Lemma step_in_order s e s' o : wf s -> in_view (r_view s) 0 e \/ (exists n, in_view (r_view s) n e) -> in_order s -> step s e = (s', o) -> in_order s'.
  Proof.
    intros W IV Io E. pose proof (step_static _ _ _ _ W E) as (_ & Ev & Ec). unfold in_order in *. rewrite Ev, Ec.
    destruct e as [now ts|l0 r0|r0|r0|fz|t|k|]; cbn [Send_Model.step] in E.
    - apply send_frame in E; [|exact W]. destruct E as (_ & _ & _ & _ & _ & _ & _ & Lo & _). rewrite Lo. exact Io.
    - injection E as <- <-. destruct (existsb (Nat.eqb r0) (r_known s)); exact Io.
    - injection E as <- <-. exact Io.
    - injection E as <- <-. exact Io.
    - injection E as <- <-. unfold order. destruct (get_sent _ s); [left; reflexivity|exact Io].
    - injection E as <- <-. unfold revert. cbn [r_last_ordered].
      pose proof (revert_loop_rest (r_batches s) s) as X. cbn zeta in X. destruct X as (_ & _ & _ & _ & X & _). rewrite X. exact Io.
    - injection E as <- <-. rewrite caught_ordered. destruct (later (r_last_ordered s) k) eqn:Lt; [|exact Io]. left.
      assert (IV' : exists n, in_view (r_view s) n (ECaught k)) by (destruct IV as [IV|IV]; [exists 0; exact IV|exact IV]).
      destruct IV' as (n & [[A _]| ->]); [exact A|]. apply later_iff in Lt. cbn [fst snd] in Lt. lia.
    - injection E as <- <-. exact Io.
  Qed.

  Lemma step_bound n0 v L m s e s' o : inv n0 v s -> in_view v n0 e -> confined L s -> in_order s -> in_flight c = Some m ->
    r_last_pp s - snd (r_last_ordered s) <= (m - 1) + length L -> step s e = (s', o) -> r_last_pp s' - snd (r_last_ordered s') <= (m - 1) + length L.
  Proof.
    intros I IV Cf Io Fm Le E. pose proof I as (W & (bs & rest & FL) & Si & Ev). pose proof FL as (_ & Vl & Ll & _).
    destruct e as [now ts|l0 r0|r0|r0|fz|t|k|]; cbn [Send_Model.step] in E.
    - destruct (can_send c s) eqn:Can; [|rewrite send_not in E by exact Can; injection E as <- <-; exact Le].
      destruct (send_spec _ _ _ _ _ (proj1 W) Can E) as (s1 & E1 & N & F & _ & Lp & _).
      apply sends_spec in E1 as (_ & _ & _ & Lp1 & _). destruct F as (_ & _ & _ & _ & _ & _ & _ & Lo & _). rewrite Lp, Lp1, Lo.
      pose proof (targets_length L now ts s (proj1 W) Cf N) as TL.
      apply can_send_spec in Can as (_ & _ & _ & _ & C1 & C2 & C3 & C4).
      destruct Io as [Io|Io].
      + destruct (C4 Io) as [_ C5]. specialize (C5 m Fm). lia.
      + destruct (Nat.eq_dec (fst (r_last_ordered s)) (r_view s)) as [Ef|Ef]; [destruct (C4 Ef) as [_ C5]; specialize (C5 m Fm); lia|].
        destruct (Nat.eq_dec (r_last_pp s) (r_cert s)) as [X|X]; [lia|]. assert (r_cert s < snd (r_last_ordered s)) by (apply C2; lia). lia.
    - injection E as <- <-. destruct (existsb (Nat.eqb r0) (r_known s)); exact Le.
    - injection E as <- <-. exact Le.
    - injection E as <- <-. exact Le.
    - injection E as <- <-. unfold order. destruct (get_sent _ s); [|exact Le].
      cbn [discard_reqs with_queues with_ordered with_fresh r_last_pp r_last_ordered fst snd]. lia.
    - injection E as <- <-. destruct (revert_loop_flight _ _ _ FL) as ((_ & _ & _ & M & _) & _).
      unfold revert. cbn [r_last_pp r_last_ordered].
      assert (X : length (map p_seq (@nil pp)) = r_last_pp (revert_loop (r_batches s) s) - snd (r_last_ordered (revert_loop (r_batches s) s))).
      { rewrite M, rev_length, seq_length. reflexivity. }
      cbn [map length] in X. lia.
    - injection E as <- <-. rewrite caught_ordered. unfold caught_up. destruct (later (r_last_ordered s) k) eqn:Lt; [|exact Le].
      set (ps := filter _ (r_sent s)). pose proof (discards_rest ps (with_ordered k s)) as X. cbn zeta in X. cbn [r_last_pp].
      destruct X as (_ & _ & _ & _ & _ & _ & _ & X & _). rewrite X. cbn [with_ordered r_last_pp].
      apply later_iff in Lt. cbn [in_view] in IV. destruct IV as [[A B]| ->]; [|cbn [fst snd] in Lt; lia].
      destruct Si as [Si|Si]; lia.
    - injection E as <- <-. exact Le.
  Qed.
  Lemma run_bound n0 v L m es : forall s s' o, inv n0 v s -> Forall (in_view v n0) es -> Forall (fun e => incl (ledgers_of e) L) es ->
    confined L s -> in_order s -> in_flight c = Some m ->
    r_last_pp s - snd (r_last_ordered s) <= (m - 1) + length L -> run s es = (s', o) -> r_last_pp s' - snd (r_last_ordered s') <= (m - 1) + length L.
  Proof.
    induction es as [|e es IH]; intros s s' o I F FL Cf Io Fm Le; cbn [Send_Model.run]; [intros E; injection E as <- <-; exact Le|].
    inversion F as [|? ? F1 F2]; subst. inversion FL as [|? ? G1 G2]; subst.
    destruct (step s e) as [s1 o1] eqn:E1. destruct (run s1 es) as [s2 o2] eqn:E2. intros E. injection E as <- <-.
    assert (Ev : r_view s = v) by apply I.
    eapply (IH s1 s2 o2); eauto using step_inv, step_confined, step_bound.
    - eapply step_confined; eauto. apply I.
    - eapply step_in_order; [apply I| |exact Io|exact E1]. right. exists n0. rewrite Ev. exact F1.
  Qed.

  (** *** Freshness *)
  (** what an event can do to the times of a ledger *)
  Lemma remove_get ls : forall f l x, get l (remove_ledgers ls f) = Some x -> get l f = Some x.
  Proof.
    unfold remove_ledgers. induction ls as [|l0 ls IH]; intros f l x; cbn [fold_left]; [auto|]. intros H. apply IH in H.
    rewrite get_del in H. destruct (l =? l0); [discriminate|exact H].
  Qed.
  Lemma order_fresh fz s l u m : get l (r_fresh (order fz s)) = Some (u, m) ->
    get l (r_fresh s) = Some (u, m) \/
    exists p u0, get_sent (r_view s, S (snd (r_last_ordered s))) s = Some p /\ p_lid p = l /\ u = p_time p /\ get l (r_fresh s) = Some (u0, m).
  Proof.
    unfold order. destruct (get_sent _ s) as [p|]; [|auto]. cbn [discard_reqs with_queues with_ordered with_fresh r_fresh]. intros H.
    apply remove_get in H. unfold update_freshness in H. destruct (get (p_lid p) (r_fresh s)) as [[u0 m0]|] eqn:G; [|auto].
    rewrite get_set in H. destruct (Nat.eqb_spec l (p_lid p)) as [->|]; [|auto]. injection H as <- <-. right. exists p, u0. auto.
  Qed.
  Lemma order_fresh_other fz s l u m : get l (r_fresh (order fz s)) = Some (u, m) ->
    forall p, get_sent (r_view s, S (snd (r_last_ordered s))) s = Some p -> p_lid p = l -> u = p_time p.
  Proof.
    unfold order. intros H p G El. rewrite G in H. cbn [discard_reqs with_queues with_ordered with_fresh r_fresh] in H.
    apply remove_get in H. unfold update_freshness in H. rewrite El in H. destruct (get l (r_fresh s)) as [[u0 m0]|] eqn:Gf; [|congruence].
    rewrite get_set, Nat.eqb_refl in H. injection H as <- _. reflexivity.
  Qed.
  Lemma send_fresh now ts s s' o l u m : wf s -> send now ts s = (s', o) -> get l (r_fresh s') = Some (u, m) ->
    get l (r_fresh s) = Some (u, m) \/
    (can_send c s = true /\ update c = true /\ r_master s = true /\ m = ts /\ stale ts (r_fresh s) l /\ exists m0, get l (r_fresh s) = Some (u, m0)).
  Proof.
    intros W E. destruct (can_send c s) eqn:Can; [|rewrite send_not in E by exact Can; injection E as <- <-; auto].
    destruct (send_spec _ _ _ _ _ W Can E) as (s1 & _ & _ & _ & _ & _ & _ & _ & _ & _ & Fr & _). rewrite Fr.
    destruct (update c) eqn:U; [|auto]. destruct (r_master s) eqn:M; [|auto]. cbn [andb]. rewrite check_get.
    destruct (get l (r_fresh s)) as [[u0 m0]|] eqn:G; [|discriminate]. cbn [option_map]. unfold mark. cbn [fst snd].
    destruct (outdated (interval c) ts (u0, m0)) eqn:Od; intros H; injection H as <- <-; [|auto].
    right. apply outdated_spec in Od. repeat split; auto; [exists u0, m0; auto|exists m0; reflexivity].
  Qed.
  Lemma step_marked s e s' o l u' m' : wf s -> step s e = (s', o) -> get l (r_fresh s') = Some (u', m') ->
    exists u m, get l (r_fresh s) = Some (u, m) /\ m <= m'.
  Proof.
    intros W. destruct e as [now ts|l0 r0|r0|r0|fz|t|k|]; cbn [Send_Model.step].
    - intros E H. destruct (send_fresh _ _ _ _ _ _ _ _ W E H) as [X|(_ & _ & _ & -> & (u & m & G & _ & Lt) & _)]; [exists u', m'; auto|].
      exists u, m. split; [exact G|lia].
    - intros E H. injection E as <- <-. exists u', m'. split; [|lia]. destruct (existsb (Nat.eqb r0) (r_known s)); exact H.
    - intros E H. injection E as <- <-. exists u', m'. auto.
    - intros E H. injection E as <- <-. exists u', m'. auto.
    - intros E H. injection E as <- <-. destruct (order_fresh _ _ _ _ _ H) as [X|(p & u0 & _ & _ & _ & X)]; eauto.
    - intros E H. injection E as <- <-. exists u', m'. split; [|lia]. unfold revert in H. cbn [r_fresh] in H.
      pose proof (revert_loop_rest (r_batches s) s) as X. cbn zeta in X. destruct X as (_ & _ & _ & _ & _ & X & _). rewrite X in H. exact H.
    - intros E H. injection E as <- <-. exists u', m'. split; [|lia]. unfold caught_up in H. destruct (later (r_last_ordered s) k); [|exact H].
      set (ps := filter _ (r_sent s)) in H. pose proof (discards_rest ps (with_ordered k s)) as X. cbn zeta in X. cbn [r_fresh] in H.
      destruct X as (_ & _ & _ & _ & _ & _ & _ & _ & _ & X & _). rewrite X in H. exact H.
    - intros E H. injection E as <- <-. exists u', m'. auto.
  Qed.
  Lemma run_marked es : forall s s' o l u' m', wfq s -> run s es = (s', o) -> get l (r_fresh s') = Some (u', m') ->
    exists u m, get l (r_fresh s) = Some (u, m) /\ m <= m'.
  Proof.
    induction es as [|e es IH]; intros s s' o l u' m' W; cbn [Send_Model.run]; [intros E H; injection E as <- <-; exists u', m'; auto|].
    destruct (step s e) as [s1 o1] eqn:E1. destruct (run s1 es) as [s2 o2] eqn:E2. intros E H. injection E as <- <-.
    destruct (IH _ _ _ _ _ _ (step_wf _ _ _ _ W E1) E2 H) as (u1 & m1 & G1 & L1).
    destruct (step_marked _ _ _ _ _ _ _ (proj1 W) E1 G1) as (u0 & m0 & G0 & L0). exists u0, m0. split; [exact G0|lia].
  Qed.

  (** the time of the newest batch in flight of a ledger, or of the last one ordered *)
  Definition newest_time (l : nat) (bs : list pp) (u : nat) : nat :=
    match filter (fun p => p_lid p =? l) bs with p :: _ => p_time p | [] => u end.
  Fixpoint descending (l : list nat) : Prop := match l with x :: (y :: _) as l' => y <= x /\ descending l' | _ => True end.
  Section Fresh.
    Variable t0 : nat.   (* no later than any time of sending *)
    Definition within (x : nat) (s : rep) : Prop := x <= t0 \/ exists t, r_time s = Some t /\ x <= t.
    Definition fresh_inv (bs : list pp) (s : rep) : Prop :=
      (forall p, In p (r_sent s) -> p_view p = r_view s /\ p_seq p <= r_last_pp s) /\
      descending (map p_time bs) /\ (forall p, In p bs -> exists t, r_time s = Some t /\ p_time p <= t) /\
      (forall l u m, get l (r_fresh s) = Some (u, m) ->
         within u s /\ within m s /\ (forall p, In p bs -> u <= p_time p) /\ m <= newest_time l bs u).
    Lemma batch_time_ge l ts s : ts <= batch_time l ts s /\ forall t, r_time s = Some t -> t <= batch_time l ts s.
    Proof.
      unfold batch_time, known_time. destruct (r_time s) as [t|].
      - destruct (Nat.ltb_spec ts t); split; try lia; intros t' E; injection E as <-; lia.
      - split; [|discriminate]. destruct (l =? DOMAIN); [|lia]. destruct (r_stored s) as [[|t]|]; [lia| |lia].
        destruct (Nat.ltb_spec ts (S t)); lia.
    Qed.
    Lemma send_batch_fresh l ts s s' p bs rest : t0 <= ts -> flight s bs rest -> fresh_inv bs s -> send_batch l ts s = (s', p) -> fresh_inv (p :: bs) s'.
    Proof.
      intros Ht FL (I1 & I2 & I3 & I4) E.
      apply send_batch_spec in E as (F & El & Vp & Sp & Lp & Tp & Tm & _ & _ & _ & Fr & _ & _ & St & _).
      destruct F as (_ & _ & _ & _ & _ & Ev & _). destruct (batch_time_ge l ts s) as [T1 T2]. rewrite <- Tp in T1, T2.
      assert (Wt : forall x, within x s -> x <= p_time p).
      { intros x [X|(t & Et & X)]; [lia|]. specialize (T2 t Et). lia. }
      split; [|split; [|split]].
      - rewrite St, Ev, Lp. intros p' [<-|H]; [split; [exact Vp|lia]|]. apply filter_In in H as [H _]. destruct (I1 p' H). split; [assumption|lia].
      - cbn [map descending]. destruct bs as [|b bs]; [exact Logic.I|]. cbn [map] in *. split; [|exact I2].
        destruct (I3 b (or_introl eq_refl)) as (t & Et & X). specialize (T2 t Et). lia.
      - intros p' [<-|H]; exists (p_time p); (split; [exact Tm|]); [lia|]. destruct (I3 p' H) as (t & Et & X). specialize (T2 t Et). lia.
      - rewrite Fr. intros l' u m G. destruct (I4 l' u m G) as (A & B & C0 & D).
        split; [right; exists (p_time p); split; [exact Tm|apply Wt, A]|]. split; [right; exists (p_time p); split; [exact Tm|apply Wt, B]|].
        split; [intros p' [<-|H]; [apply Wt, A|apply C0, H]|].
        unfold newest_time in *. cbn [filter]. destruct (p_lid p =? l'); [apply Wt, B|exact D].
    Qed.
    Lemma sends_fresh_inv ts ls : forall s s' ps bs rest, t0 <= ts -> flight s bs rest -> fresh_inv bs s -> sends ts ls s = (s', ps) -> fresh_inv (rev ps ++ bs) s'.
    Proof.
      induction ls as [|l ls IH]; intros s s' ps bs rest Ht FL I; cbn [sends]; [intros E; injection E as <- <-; exact I|].
      destruct (send_batch l ts s) as [s1 p] eqn:E1. destruct (sends ts ls s1) as [s2 ps'] eqn:E2. intros E. injection E as <- <-.
      cbn [rev]. rewrite <- app_assoc. cbn [app]. eapply IH; [exact Ht| | |exact E2].
      - eapply send_batch_flight; eauto.
      - eapply send_batch_fresh; eauto.
    Qed.
    Lemma newest_time_in l p ps bs u : In p ps -> p_lid p = l -> exists p', In p' ps /\ p_lid p' = l /\ newest_time l (rev ps ++ bs) u = p_time p'.
    Proof.
      intros H El. unfold newest_time. rewrite filter_app.
      destruct (filter (fun p => p_lid p =? l) (rev ps)) as [|x y] eqn:E.
      - exfalso. assert (X : In p (filter (fun p => p_lid p =? l) (rev ps))) by (apply filter_In; split; [apply in_rev; rewrite rev_involutive; exact H|apply Nat.eqb_eq, El]).
        rewrite E in X. destruct X.
      - exists x. cbn [app]. assert (X : In x (filter (fun p => p_lid p =? l) (rev ps))) by (rewrite E; left; reflexivity).
        apply filter_In in X as [X Y]. apply in_rev in X. apply Nat.eqb_eq in Y. auto.
    Qed.
    Lemma send_fresh_inv now ts s s' o bs rest : wf s -> t0 <= ts -> flight s bs rest -> fresh_inv bs s -> send now ts s = (s', o) -> fresh_inv (rev o ++ bs) s'.
    Proof.
      intros W Ht FL I E. destruct (can_send c s) eqn:Can; [|rewrite send_not in E by exact Can; injection E as <- <-; exact I].
      pose proof (fun l u m => send_fresh _ _ _ _ _ l u m W E) as SF.
      destruct (send_spec _ _ _ _ _ W Can E) as (s1 & E1 & N & F & _ & Lp & _ & St & Tm & _).
      pose proof (sends_fresh_inv _ _ _ _ _ _ _ Ht FL I E1) as (I1 & I2 & I3 & I4).
      pose proof (sends_spec _ _ _ _ _ E1) as (F1 & Ls & _ & _ & _ & _ & Fr1 & _).
      pose proof (sends_time _ _ _ _ _ E1) as Ti.
      destruct F as (_ & _ & _ & _ & _ & Ev & _). destruct F1 as (_ & _ & _ & _ & _ & Ev1 & _).
      split; [rewrite St, Ev, Lp, <- Ev1; exact I1|]. split; [exact I2|]. split; [rewrite Tm; exact I3|].
      intros l u m G. unfold within. rewrite Tm. destruct (SF l u m G) as [X|(_ & U & M & -> & Stl & m0 & X)].
      - rewrite <- Fr1 in X. exact (I4 l u m X).
      - rewrite <- Fr1 in X. destruct (I4 l u m0 X) as (A & B & C0 & D).
        assert (Hl : In l (targets now ts s)) by (apply targets_stale; auto). rewrite <- Ls in Hl. apply in_map_iff in Hl as (p & El & Hp).
        split; [exact A|]. split.
        + right. destruct (I3 p) as (t & Et & Lt); [apply in_or_app; left; apply in_rev; rewrite rev_involutive; exact Hp|].
          exists t. split; [exact Et|]. destruct (Ti p Hp) as [Y _]. lia.
        + split; [exact C0|]. destruct (newest_time_in l p o bs u Hp El) as (p' & Hp' & _ & ->). exact (proj1 (Ti p' Hp')).
    Qed.
    Lemma descending_last l x : descending (l ++ [x]) -> descending l /\ forall y, In y l -> x <= y.
    Proof.
      induction l as [|a l IH]; cbn [app]; [split; [exact Logic.I|intros ? []]|]. intros D. destruct l as [|b l].
      - cbn in D. split; [exact Logic.I|]. intros y [<-|[]]. lia.
      - cbn [app descending] in D. destruct D as [D1 D2]. destruct (IH D2) as [A B]. split; [split; assumption|].
        intros y [<-|H]; [|auto]. pose proof (B b (or_introl eq_refl)). lia.
    Qed.
    Lemma order_fresh_inv fz s bs rest : flight s bs rest -> fresh_inv bs s -> exists bs' rest', flight (order fz s) bs' rest' /\ fresh_inv bs' (order fz s).
    Proof.
      intros FL I. pose proof I as (I1 & I2 & I3 & I4).
      destruct (order_flight fz _ _ _ FL) as [(_ & -> & ->)|(p & G & [(bs' & -> & F)|(-> & F)])].
      - exists [], rest. auto.
      - exists bs', (p :: rest). split; [exact F|].
        pose proof (fun l u m => order_fresh fz s l u m) as OF. pose proof (fun l u m => order_fresh_other fz s l u m) as OO.
        rewrite map_app in I2. cbn [map] in I2. apply descending_last in I2 as [I2 I2'].
        assert (Hp : In p (bs' ++ [p])) by (apply in_or_app; right; left; reflexivity).
        assert (Eo : r_sent (order fz s) = r_sent s /\ r_view (order fz s) = r_view s /\ r_time (order fz s) = r_time s /\ r_last_pp s <= r_last_pp (order fz s)).
        { unfold order. rewrite G. cbn [discard_reqs with_queues with_ordered with_fresh r_sent r_view r_last_pp r_time fst snd]. repeat split. lia. }
        destruct Eo as (Eo1 & Eo2 & Eo3 & Eo4). unfold fresh_inv, within. rewrite Eo1, Eo2, Eo3.
        split; [intros p' H; destruct (I1 p' H); split; [assumption|lia]|]. split; [exact I2|].
        split; [intros p' H; apply I3; apply in_or_app; left; exact H|].
        intros l u m H. destruct (OF l u m H) as [X|(p1 & u0 & G1 & El & -> & X)].
        + destruct (I4 l u m X) as (A & B & C0 & D). split; [exact A|]. split; [exact B|]. split; [intros p' H'; apply C0; apply in_or_app; left; exact H'|].
          unfold newest_time in *. rewrite filter_app in D. cbn [filter] in D. destruct (Nat.eqb_spec (p_lid p) l) as [El|El].
          * pose proof (OO l u m H p G El) as ->. destruct (filter _ bs'); [exact D|exact D].
          * rewrite app_nil_r in D. exact D.
        + rewrite G in G1. injection G1 as <-. destruct (I4 l u0 m X) as (A & B & C0 & D).
          split; [destruct (I3 p Hp) as (t & Et & Lt); right; exists t; auto|]. split; [exact B|].
          split; [intros p' H'; apply I2'; apply in_map, H'|].
          unfold newest_time in *. rewrite filter_app in D. cbn [filter] in D. rewrite El, Nat.eqb_refl in D.
          destruct (filter _ bs'); exact D.
      - exfalso. apply get_sent_in in G as [G K]. destruct (I1 p G) as [_ L1]. injection K as _ K.
        destruct FL as (_ & _ & L & M & _). cbn [map] in M. 
        assert (X : length (@nil nat) = r_last_pp s - snd (r_last_ordered s)) by (rewrite M at 1; rewrite rev_length, seq_length; reflexivity).
        cbn [length] in X. lia.
    Qed.
    Definition calm (e : event) : Prop := match e with ERevert _ | ECaught _ => False | ESend _ ts => t0 <= ts | _ => True end.
    Lemma step_fresh_inv s e s' o bs rest : wf s -> calm e -> flight s bs rest -> fresh_inv bs s -> step s e = (s', o) ->
      exists bs' rest', flight s' bs' rest' /\ fresh_inv bs' s'.
    Proof.
      intros W Cm FL I. destruct e as [now ts|l0 r0|r0|r0|fz|t|k|]; cbn [Send_Model.step calm] in *.
      - intros E. exists (rev o ++ bs), rest. split; [eapply send_flight; eauto|eapply send_fresh_inv; eauto].
      - intros E. injection E as <- <-. exists bs, rest. destruct (existsb (Nat.eqb r0) (r_known s)); split; assumption.
      - intros E. injection E as <- <-. exists bs, rest. split; assumption.
      - intros E. injection E as <- <-. exists bs, rest. split; assumption.
      - intros E. injection E as <- <-. eapply order_fresh_inv; eauto.
      - destruct Cm.
      - destruct Cm.
      - intros E. injection E as <- <-. exists bs, rest. split; assumption.
    Qed.
    (** since [ts], every ledger was updated or marked not more than the interval ago *)
    Definition covered (ts : nat) (s : rep) : Prop := forall l u m, get l (r_fresh s) = Some (u, m) -> ts <= u + interval c \/ ts <= m + interval c.
    Lemma step_covered x s e s' o bs rest : wf s -> calm e -> flight s bs rest -> fresh_inv bs s -> step s e = (s', o) -> covered x s -> covered x s'.
    Proof.
      intros W Cm FL I. destruct e as [now ts|l0 r0|r0|r0|fz|t|k|]; cbn [Send_Model.step calm] in *; intros E Cv l u m G.
      - destruct (send_fresh _ _ _ _ _ _ _ _ W E G) as [X|(_ & _ & _ & -> & (u1 & m1 & G1 & L1 & L2) & m0 & X)]; [apply (Cv l u m X)|].
        destruct (Cv l u m0 X) as [Y|Y]; [auto|]. rewrite X in G1. injection G1 as <- <-. right. lia.
      - injection E as <- <-. apply (Cv l u m). destruct (existsb (Nat.eqb r0) (r_known s)); exact G.
      - injection E as <- <-. apply (Cv l u m G).
      - injection E as <- <-. apply (Cv l u m G).
      - injection E as <- <-. destruct (order_fresh _ _ _ _ _ G) as [X|(p & u0 & Gp & El & -> & X)]; [apply (Cv l u m X)|].
        destruct (Cv l u0 m X) as [Y|Y]; [|auto]. left. destruct I as (I1 & _ & _ & I4). destruct (I4 l u0 m X) as (_ & _ & C0 & _).
        destruct (order_flight fz _ _ _ FL) as [(Gn & _)|(p1 & G1 & [(bs' & -> & _)|(-> & _)])]; [congruence| |].
        + rewrite Gp in G1. injection G1 as <-. specialize (C0 p). assert (Hp : In p (bs' ++ [p])) by (apply in_or_app; right; left; reflexivity). specialize (C0 Hp). lia.
        + exfalso. apply get_sent_in in Gp as [Gp K]. destruct (I1 p Gp) as [_ L1]. injection K as _ K.
          destruct FL as (_ & _ & L & M & _). cbn [map] in M. 
          assert (Z : length (@nil nat) = r_last_pp s - snd (r_last_ordered s)) by (rewrite M at 1; rewrite rev_length, seq_length; reflexivity).
          cbn [length] in Z. lia.
      - destruct Cm.
      - destruct Cm.
      - injection E as <- <-. apply (Cv l u m G).
    Qed.
    Lemma send_covered now ts s s' o : wf s -> can_send c s = true -> update c = true -> r_master s = true -> send now ts s = (s', o) -> covered ts s'.
    Proof.
      intros W Can U M E l u m G. destruct (send_spec _ _ _ _ _ W Can E) as (s1 & _ & _ & _ & _ & _ & _ & _ & _ & _ & Fr & _).
      rewrite Fr, U, M in G. cbn [andb] in G. rewrite check_get in G. destruct (get l (r_fresh s)) as [[u0 m0]|]; [|discriminate].
      cbn [option_map] in G. unfold mark in G. cbn [fst snd] in G. destruct (outdated (interval c) ts (u0, m0)) eqn:Od; injection G as <- <-.
      - right. lia.
      - destruct (Nat.le_gt_cases ts (u0 + interval c)); [auto|]. destruct (Nat.le_gt_cases ts (m0 + interval c)); [auto|].
        assert (outdated (interval c) ts (u0, m0) = true) by (apply outdated_spec; lia). congruence.
    Qed.
    Lemma run_fresh_inv es : forall s s' o bs rest, wfq s -> Forall calm es -> flight s bs rest -> fresh_inv bs s -> run s es = (s', o) ->
      exists bs' rest', flight s' bs' rest' /\ fresh_inv bs' s' /\ forall x, covered x s -> covered x s'.
    Proof.
      induction es as [|e es IH]; intros s s' o bs rest W Cm FL I; cbn [Send_Model.run]; [intros E; injection E as <- <-; exists bs, rest; auto|].
      inversion Cm as [|? ? C1 C2]; subst. destruct (step s e) as [s1 o1] eqn:E1. destruct (run s1 es) as [s2 o2] eqn:E2. intros E. injection E as <- <-.
      destruct (step_fresh_inv _ _ _ _ _ _ (proj1 W) C1 FL I E1) as (bs1 & rest1 & FL1 & I1).
      destruct (IH _ _ _ _ _ (step_wf _ _ _ _ W E1) C2 FL1 I1 E2) as (bs2 & rest2 & A & B & D). exists bs2, rest2. split; [exact A|]. split; [exact B|].
      intros x Cv. apply D. exact (step_covered x s e s1 o1 bs rest (proj1 W) C1 FL I E1 Cv).
    Qed.
  End Fresh.
End Proofs.
