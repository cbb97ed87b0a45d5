(** Property C26: a view change asked for by InstanceChange votes has n-f distinct voters. *)
From Coq Require Import List Arith ZArith Bool Lia.
From Verif Require Import Quorum_Model Trigger_Model.
Import ListNotations.

(** ** Specification, over what happened alone *)
Definition view (l : list entry) : nat := fold_left (fun w x => match x with LView v => v | _ => w end) l 0.
Definition pool (n0 : nat) (l : list entry) : nat := fold_left (fun n x => match x with LPool m => m | _ => n end) l n0.
(** the votes for view [v], with their times, since the votes for [v] were last forgotten *)
Definition tally (v : nat) (h : list (nat * Z)) (x : entry) : list (nat * Z) :=
  match x with
  | LVote v' voter t => if v' =? v then h ++ [(voter, t)] else h
  | LForget w => if v <=? w then [] else h
  | _ => h
  end.
Definition votes (v : nat) (l : list entry) : list (nat * Z) := fold_left (tally v) l [].
(** a vote given at [t] counts at time [now] *)
Definition fresh (window now t : Z) : Prop := (window <= 0 \/ now - window <= t)%Z.
Definition quorum_at (window : Z) (n0 : nat) (l : list entry) (v : nat) (now : Z) : Prop :=
  exists voters, NoDup voters /\ pool n0 l - getMaxFailures (pool n0 l) <= length voters /\
    forall x, In x voters -> exists t, In (x, t) (votes v l) /\ fresh window now t.

Definition entry_ok (window : Z) (n0 : nat) (l : list entry) (x : entry) : Prop :=
  match x with
  | LStart v now => view l < v /\ quorum_at window n0 l v now
  | _ => True
  end.
Definition log_ok window n0 (l : list entry) : Prop := forall l1 x l2, l = l1 ++ x :: l2 -> entry_ok window n0 l1 x.
(** a recorded vote which completes the quorum is at once followed by the start *)
Definition live_ok window n0 (l : list entry) : Prop := forall l1 v x t l2, l = l1 ++ LVote v x t :: l2 ->
  view l1 < v -> quorum_at window n0 (l1 ++ [LVote v x t]) v t -> exists l2', l2 = LStart v t :: l2'.

(** ** Lemmas *)
Section Proofs.
Variable window : Z.
Notation step := (step window).
Definition at_view (c : cache) (v : nat) : dict vote := match get v c with Some d => d | None => [] end.
Definition alive (now : Z) (vt : vote) : bool := (window <=? 0)%Z || negb (timestamp vt <? now - window)%Z.
Lemma alive_fresh now vt : alive now vt = true <-> fresh window now (timestamp vt).
Proof. unfold alive, fresh. rewrite orb_true_iff, negb_true_iff, Z.leb_le, Z.ltb_ge. tauto. Qed.

Lemma get_set {V} k (v : V) d k' : get k' (set k v d) = if k' =? k then Some v else get k' d.
Proof.
  induction d as [|(k0, v0) d IH]; simpl; [reflexivity|].
  destruct (Nat.eqb_spec k k0) as [<-|N]; simpl; [destruct (k' =? k); reflexivity|].
  rewrite IH. destruct (Nat.eqb_spec k' k0) as [->|N']; [|reflexivity]. destruct (Nat.eqb_spec k0 k); congruence.
Qed.
Lemma get_filter {V} (f : nat -> bool) (d : dict V) k : get k (filter (fun x => f (fst x)) d) = if f k then get k d else None.
Proof.
  induction d as [|(k0, v0) d IH]; simpl; [destruct (f k); reflexivity|].
  destruct (f k0) eqn:F; simpl; rewrite IH; destruct (Nat.eqb_spec k k0) as [->|N]; rewrite ?F; reflexivity.
Qed.
Lemma get_del {V} k (d : dict V) k' : get k' (del k d) = if k' =? k then None else get k' d.
Proof. unfold del. rewrite (get_filter (fun x => negb (x =? k))). destruct (k' =? k); reflexivity. Qed.
Lemma get_in {V} k (d : dict V) v : get k d = Some v -> In (k, v) d.
Proof. induction d as [|(k0, v0) d IH]; simpl; [discriminate|]. destruct (Nat.eqb_spec k k0) as [->|N]; [intros E; injection E as ->; auto|auto]. Qed.
Lemma in_get {V} k (d : dict V) v : NoDup (map fst d) -> In (k, v) d -> get k d = Some v.
Proof.
  induction d as [|(k0, v0) d IH]; simpl; intros N I0; [destruct I0|]. inversion N as [|? ? N1 N2]; subst. destruct I0 as [E|I].
  - injection E as -> ->. rewrite Nat.eqb_refl. reflexivity.
  - destruct (Nat.eqb_spec k k0) as [->|Ne]; [|auto]. exfalso. apply N1. apply (in_map fst) in I. exact I.
Qed.
Lemma get_none {V} k (d : dict V) : get k d = None <-> ~ In k (map fst d).
Proof.
  induction d as [|(k0, v0) d IH]; simpl; [tauto|]. destruct (Nat.eqb_spec k k0) as [->|N]; [split; [discriminate|intuition]|].
  rewrite IH. intuition congruence.
Qed.
Lemma nodup_filter {V} (f : nat * V -> bool) (d : dict V) : NoDup (map fst d) -> NoDup (map fst (filter f d)).
Proof.
  induction d as [|x d IH]; simpl; intros N; [apply NoDup_nil|]. inversion N as [|? ? N1 N2]; subst. destruct (f x); simpl; [|auto].
  apply NoDup_cons; [|auto]. intros I. apply N1. apply in_map_iff in I as (y & <- & Y). apply in_map. apply filter_In in Y. tauto.
Qed.
Lemma nodup_set {V} k (v : V) d : NoDup (map fst d) -> NoDup (map fst (set k v d)).
Proof.
  induction d as [|(k0, v0) d IH]; simpl; intros N; [apply NoDup_cons; [auto|apply NoDup_nil]|]. inversion N as [|? ? N1 N2]; subst.
  destruct (Nat.eqb_spec k k0) as [->|Ne]; simpl; [apply NoDup_cons; assumption|]. apply NoDup_cons; [|auto].
  rewrite <- get_none, get_set in *. destruct (Nat.eqb_spec k0 k); [congruence|exact N1].
Qed.
Lemma set_new {V} k (v : V) d : get k d = None -> set k v d = d ++ [(k, v)].
Proof.
  induction d as [|(k0, v0) d IH]; simpl; [reflexivity|]. destruct (Nat.eqb_spec k k0); [discriminate|]. intros G. rewrite IH by exact G. reflexivity.
Qed.

(** *** caches without empty views, with distinct voters *)
Definition wf (c : cache) : Prop := NoDup (map fst c) /\ forall v d, get v c = Some d -> d <> [] /\ NoDup (map fst d).
Lemma wf_nodup c v : wf c -> NoDup (map fst (at_view c v)).
Proof. intros (_ & W). unfold at_view. destruct (get v c) as [d|] eqn:G; [apply (W v d G)|apply NoDup_nil]. Qed.
Lemma wf_get c v : wf c -> get v c = match at_view c v with [] => None | d => Some d end.
Proof. intros (_ & W). unfold at_view. destruct (get v c) as [d|] eqn:G; [|reflexivity]. destruct d; [destruct (W v [] G); congruence|reflexivity]. Qed.
(** the cache with the votes [d] at [v] *)
Definition with_view (v : nat) (d : dict vote) (c : cache) : cache := match d with [] => del v c | _ => set v d c end.
Lemma with_view_at v d c v' : at_view (with_view v d c) v' = if v' =? v then d else at_view c v'.
Proof.
  unfold at_view, with_view. destruct d as [|x d]; [rewrite get_del|rewrite get_set]; destruct (v' =? v); reflexivity.
Qed.
Lemma with_view_wf v d c : wf c -> NoDup (map fst d) -> wf (with_view v d c).
Proof.
  intros (N & W) Nd. unfold with_view. destruct d as [|x d].
  - split; [apply nodup_filter, N|]. intros v' d' G. rewrite get_del in G. destruct (v' =? v); [discriminate|]. apply (W v' d' G).
  - split; [apply nodup_set, N|]. intros v' d' G. rewrite get_set in G. destruct (v' =? v); [injection G as <-|apply (W v' d' G)].
    split; [discriminate|exact Nd].
Qed.
Lemma remove_vote_eq v y c d vt : get v c = Some d -> get y d = Some vt -> remove_vote v y c = with_view v (del y d) c.
Proof. intros G Gy. unfold remove_vote, with_view. rewrite G, Gy. destruct (del y d); reflexivity. Qed.
Lemma remove_vote_at v y c v' : wf c -> at_view (remove_vote v y c) v' = if v' =? v then del y (at_view c v) else at_view c v'.
Proof.
  intros W. unfold remove_vote. destruct (get v c) as [d|] eqn:G.
  - assert (E : at_view c v = d) by (unfold at_view; rewrite G; reflexivity).
    destruct (get y d) as [vt|] eqn:Gy.
    + pose proof (remove_vote_eq v y c d vt G Gy) as Q. unfold remove_vote in Q. rewrite G, Gy in Q.
      etransitivity; [apply (f_equal (fun c => at_view c v')); exact Q|]. rewrite with_view_at, E. reflexivity.
    + destruct (Nat.eqb_spec v' v) as [->|Ne]; [|reflexivity]. rewrite E. unfold del. symmetry.
      apply get_none in Gy. clear - Gy. induction d as [|(k0, v0) d IH]; simpl in *; [reflexivity|].
      destruct (Nat.eqb_spec k0 y); [tauto|]. simpl. rewrite IH by tauto. reflexivity.
  - destruct (Nat.eqb_spec v' v) as [->|Ne]; [|reflexivity]. unfold at_view. rewrite G. reflexivity.
Qed.
Lemma remove_vote_wf v y c : wf c -> wf (remove_vote v y c).
Proof.
  intros W. destruct (get v c) as [d|] eqn:G; [|unfold remove_vote; rewrite G; exact W].
  destruct (get y d) as [vt|] eqn:Gy; [|unfold remove_vote; rewrite G, Gy; exact W].
  rewrite (remove_vote_eq v y c d vt G Gy). apply with_view_wf; [exact W|]. apply nodup_filter. destruct W as (_ & W). apply (W v d G).
Qed.
Definition outdated (now : Z) (x : nat * vote) : bool := (timestamp (snd x) <? now - window)%Z.
Lemma drop_outdated_at now v ds : forall c v', wf c ->
  at_view (fst (drop_outdated window now v ds c)) v' =
    (if v' =? v then filter (fun x => negb (existsb (fun y => (fst y =? fst x) && outdated now y) ds)) (at_view c v) else at_view c v') /\
  wf (fst (drop_outdated window now v ds c)) /\
  (snd (drop_outdated window now v ds c) = false -> fst (drop_outdated window now v ds c) = c).
Proof.
  induction ds as [|(y, vt) ds IH]; intros c v' W; simpl.
  - split; [|auto]. destruct (Nat.eqb_spec v' v) as [->|N]; [|reflexivity]. induction (at_view c v) as [|a l IHl]; simpl; [reflexivity|]. rewrite <- IHl. reflexivity.
  - unfold outdated at 1. simpl. destruct (timestamp vt <? now - window)%Z; simpl.
    + destruct (IH (remove_vote v y c) v' (remove_vote_wf v y c W)) as (A & B & _). split; [|split; [exact B|discriminate]].
      rewrite A. rewrite !remove_vote_at by exact W. rewrite Nat.eqb_refl. destruct (v' =? v); [|reflexivity].
      unfold del. clear. induction (at_view c v) as [|(k, z) l IHl]; simpl; [reflexivity|]. rewrite (Nat.eqb_sym y k).
      destruct (k =? y); simpl; [exact IHl|]. rewrite IHl. reflexivity.
    + destruct (IH c v' W) as (A & B & C). split; [|split; [exact B|exact C]]. rewrite A. destruct (v' =? v); [|reflexivity].
      clear. induction (at_view c v) as [|(k, z) l IHl]; simpl; [reflexivity|]. rewrite andb_false_r. simpl. rewrite IHl. reflexivity.
Qed.

(** *** what an operation of the provider does *)
Record same (s s' : state) : Prop := { s_log : log s' = log s; s_view : view_no s' = view_no s; s_nodes : nodes s' = nodes s }.
Definition stored (s : state) : Prop := wf (ic s) /\ wf (db s) /\ forall v, at_view (db s) v = at_view (ic s) v.
Lemma update_db_stored v s : wf (ic s) -> wf (db s) -> (forall v', v' <> v -> at_view (db s) v' = at_view (ic s) v') ->
  stored (update_db v s).
Proof.
  intros W Wd H.
  assert (E' : db (update_db v s) = with_view v (at_view (ic s) v) (db s)).
  { unfold update_db, at_view, with_view. simpl. destruct (get v (ic s)) as [[|]|]; reflexivity. }
  unfold stored. change (ic (update_db v s)) with (ic s). split; [exact W|].
  rewrite E'. split; [apply with_view_wf; [exact Wd|apply wf_nodup, W]|]. intros v'. rewrite with_view_at.
  destruct (Nat.eqb_spec v' v) as [->|N]; [reflexivity|apply H, N].
Qed.
Lemma update_votes_spec now v s : stored s -> let s' := update_votes window now v s in
  same s s' /\ stored s' /\ forall v', at_view (ic s') v' = if v' =? v then filter (fun x => alive now (snd x)) (at_view (ic s) v) else at_view (ic s) v'.
Proof.
  intros (W & Wd & H). unfold update_votes, alive. destruct (window <=? 0)%Z eqn:Wn; simpl.
  - split; [constructor; reflexivity|split; [exact (conj W (conj Wd H))|]]. intros v'. destruct (Nat.eqb_spec v' v) as [->|N]; [|reflexivity].
    induction (at_view (ic s) v) as [|a l IH]; simpl; [reflexivity|]. rewrite <- IH. reflexivity.
  - destruct (get v (ic s)) as [d|] eqn:G.
    2:{ split; [constructor; reflexivity|split; [exact (conj W (conj Wd H))|]]. intros v'. destruct (Nat.eqb_spec v' v) as [->|N]; [|reflexivity].
        unfold at_view. rewrite G. reflexivity. }
    assert (Ed : at_view (ic s) v = d) by (unfold at_view; rewrite G; reflexivity).
    assert (Nd : NoDup (map fst d)) by (rewrite <- Ed; apply wf_nodup, W).
    pose proof (drop_outdated_at now v d (ic s)) as D. destruct (drop_outdated window now v d (ic s)) as (c, ch). simpl in D.
    assert (Wc : wf c) by (apply (D 0 W)).
    assert (At : forall v', at_view c v' = if v' =? v then filter (fun x => negb (timestamp (snd x) <? now - window)%Z) (at_view (ic s) v) else at_view (ic s) v').
    { intros v'. destruct (D v' W) as (A & _ & _). rewrite A. destruct (v' =? v); [|reflexivity]. rewrite Ed. clear - Nd.
      apply filter_ext_in. intros (k, z) I. f_equal. unfold outdated. simpl. destruct (timestamp z <? now - window)%Z eqn:T.
      - apply existsb_exists. exists (k, z). simpl. rewrite Nat.eqb_refl, T. auto.
      - destruct (existsb _ d) eqn:X; [|reflexivity]. apply existsb_exists in X as ((k', z') & I' & X). simpl in X.
        apply andb_true_iff in X as (X1 & X2). apply Nat.eqb_eq in X1 as ->.
        pose proof (in_get _ _ _ Nd I) as E1. pose proof (in_get _ _ _ Nd I') as E2. congruence. }
    destruct ch.
    + split; [constructor; reflexivity|]. split; [|exact At]. apply update_db_stored; simpl; auto.
      intros v' N. rewrite H, At. destruct (Nat.eqb_spec v' v); congruence.
    + destruct (D 0 W) as (_ & _ & E). specialize (E eq_refl). subst c. split; [constructor; reflexivity|]. split; [exact (conj W (conj Wd H))|exact At].
Qed.

(** *** the invariant *)
Record inv (n0 : nat) (s : state) : Prop := {
  i_stored : stored s;
  i_votes : forall v y vt, In (y, vt) (at_view (ic s) v) -> In (y, timestamp vt) (votes v (log s));
  i_view : view_no s = view (log s);
  i_pool : nodes s = pool n0 (log s);
  i_log : log_ok window n0 (log s) }.

Lemma votes_snoc v l x : votes v (l ++ [x]) = tally v (votes v l) x.
Proof. unfold votes. rewrite fold_left_app. reflexivity. Qed.
Lemma view_snoc l x : view (l ++ [x]) = match x with LView v => v | _ => view l end.
Proof. unfold view. rewrite fold_left_app. reflexivity. Qed.
Lemma pool_snoc n0 l x : pool n0 (l ++ [x]) = match x with LPool v => v | _ => pool n0 l end.
Proof. unfold pool. rewrite fold_left_app. reflexivity. Qed.
Lemma log_ok_snoc n0 l x : log_ok window n0 l -> entry_ok window n0 l x -> log_ok window n0 (l ++ [x]).
Proof.
  intros H E l1 y l2 Eq. destruct l2 as [|z l2] using rev_ind.
  - apply app_inj_tail in Eq as (<- & <-). exact E.
  - clear IHl2. change (l1 ++ y :: l2 ++ [z]) with (l1 ++ (y :: l2) ++ [z]) in Eq. rewrite app_assoc in Eq.
    apply app_inj_tail in Eq as (-> & _). eapply H. reflexivity.
Qed.
Lemma update_votes_inv n0 now v s : inv n0 s -> inv n0 (update_votes window now v s).
Proof.
  intros [A B C D E]. destruct (update_votes_spec now v s A) as ([L Vw Ns] & S' & At). constructor; rewrite ?L, ?Vw, ?Ns; auto.
  intros v' y vt I. rewrite At in I. destruct (Nat.eqb_spec v' v) as [->|N]; [apply filter_In in I as (I & _)|]; auto.
Qed.
Lemma add_vote_at now v x why s v' :
  at_view (ic (add_vote now v x why s)) v' = if v' =? v then set x (Vote now why) (at_view (ic s) v) else at_view (ic s) v'.
Proof. simpl. unfold cache_add, at_view. rewrite get_set. destruct (v' =? v); reflexivity. Qed.
Lemma in_set {V} k (v : V) d k' v' : In (k', v') (set k v d) -> (k' = k /\ v' = v) \/ In (k', v') d.
Proof.
  induction d as [|(k0, v0) d IH]; simpl; [intros [E|[]]; injection E as <- <-; auto|].
  destruct (k =? k0); simpl; intros [E|E]; try (injection E as <- <-); auto. destruct (IH E); auto.
Qed.
Lemma set_nonempty {V} k (v : V) d : set k v d <> [].
Proof. destruct d as [|(k0, v0) d]; simpl; [discriminate|]. destruct (k =? k0); discriminate. Qed.
Lemma cache_add_wf v x vt c : wf c -> wf (cache_add v x vt c).
Proof.
  intros W. pose proof (wf_nodup c v W) as N. destruct W as (N1 & W). unfold cache_add. change (match get v c with Some d => d | None => [] end) with (at_view c v).
  split; [apply nodup_set, N1|]. intros v' d G. rewrite get_set in G. destruct (v' =? v); [injection G as <-|apply (W v' d G)].
  split; [apply set_nonempty|apply nodup_set, N].
Qed.
Lemma add_vote_inv n0 now v x why s : inv n0 s -> inv n0 (add_vote now v x why s).
Proof.
  intros [(W & Wd & H) B C D E]. constructor.
  - unfold add_vote. match goal with |- stored (note _ ?s1) => assert (Q : stored s1); [|exact Q] end.
    apply update_db_stored; simpl; [apply cache_add_wf, W|exact Wd|]. intros v' N. rewrite H. unfold cache_add, at_view. rewrite get_set.
    destruct (Nat.eqb_spec v' v); [congruence|reflexivity].
  - intros v' y vt I. rewrite add_vote_at in I. simpl. rewrite votes_snoc. unfold tally. rewrite (Nat.eqb_sym v v').
    destruct (Nat.eqb_spec v' v) as [->|N]; [|apply B, I]. apply in_or_app. apply in_set in I as [(-> & ->)|I]; [right; left; reflexivity|left; apply B, I].
  - simpl. rewrite view_snoc. exact C.
  - simpl. rewrite pool_snoc. exact D.
  - simpl. apply log_ok_snoc; [exact E|exact Logic.I].
Qed.
Lemma note_inv n0 x s : inv n0 s -> (match x with LSend _ | LStart _ _ => True | _ => False end) -> entry_ok window n0 (log s) x -> inv n0 (note x s).
Proof.
  intros [A B C D E] T O. constructor; simpl; auto.
  - intros v y vt I. rewrite votes_snoc. destruct x; try contradiction; apply B, I.
  - rewrite view_snoc. destruct x; try contradiction; exact C.
  - rewrite pool_snoc. destruct x; try contradiction; exact D.
  - apply log_ok_snoc; assumption.
Qed.
(** the quorum as it is found *)
Lemma found_quorum n0 now v s : inv n0 s -> (nodes s - getMaxFailures (nodes s) <= length (filter (fun x => alive now (snd x)) (at_view (ic s) v)))%nat ->
  quorum_at window n0 (log s) v now.
Proof.
  intros I L. destruct I as [(W & Wd & H) B C D E]. exists (map fst (filter (fun x => alive now (snd x)) (at_view (ic s) v))).
  split; [apply nodup_filter, wf_nodup, W|]. rewrite map_length, <- D. split; [exact L|].
  intros x X. apply in_map_iff in X as ((y, vt) & <- & Y). apply filter_In in Y as (Y & F). exists (timestamp vt).
  split; [apply B, Y|apply alive_fresh, F].
Qed.
Lemma try_start_spec n0 now v s : inv n0 s -> exists s1, same s s1 /\ inv n0 s1 /\
  (forall v', at_view (ic s1) v' = if v' =? v then filter (fun x => alive now (snd x)) (at_view (ic s) v) else at_view (ic s) v') /\
  (try_start window now v s = s1 /\
     (view_no s < v -> (length (at_view (ic s1) v) < nodes s - getMaxFailures (nodes s))%nat \/ at_view (ic s1) v = [])
   \/ try_start window now v s = note (LStart v now) s1 /\ inv n0 (note (LStart v now) s1)).
Proof.
  intros I. unfold try_start, has_quorum. pose proof (update_votes_inv n0 now v s I) as I1.
  destruct (update_votes_spec now v s (i_stored n0 s I)) as (Sm & _ & At).
  set (s1 := update_votes window now v s) in *. clearbody s1. exists s1. split; [exact Sm|split; [exact I1|split; [exact At|]]].
  destruct Sm as [L Vw Ns].
  assert (Wf1 : wf (ic s1)) by apply (i_stored n0 s1 I1). rewrite (wf_get _ v Wf1).
  pose proof (At v) as Av. rewrite Nat.eqb_refl in Av.
  destruct (at_view (ic s1) v) as [|a l] eqn:Ea; simpl; [left; auto|].
  match goal with |- context [if negb ?b then _ else _] => destruct b eqn:Q end; simpl.
  - apply Nat.leb_le in Q. rewrite Vw. destruct (view_no s <? v) eqn:Lv; simpl.
    + right. split; [reflexivity|]. apply note_inv; [exact I1|exact Logic.I|]. apply Nat.ltb_lt in Lv. simpl.
      split; [rewrite <- (i_view n0 s1 I1), Vw; exact Lv|]. rewrite L. apply (found_quorum n0 now v s I). rewrite <- Av. simpl. exact Q.
    + left. split; [reflexivity|]. intros X. apply Nat.ltb_ge in Lv. lia.
  - left. split; [reflexivity|]. intros _. apply Nat.leb_gt in Q. left. exact Q.
Qed.
Lemma on_verified_inv n0 now v x why s : inv n0 s -> inv n0 (on_verified window now v x why s).
Proof.
  intros I. unfold on_verified, has_inst_chng_from. pose proof (update_votes_inv n0 now v s I) as I1. set (s1 := update_votes window now v s) in *. clearbody s1.
  match goal with |- context [if ?b then _ else _] => destruct b end; [exact I1|]. pose proof (add_vote_inv n0 now v x why s1 I1) as I2.
  set (s2 := add_vote now v x why s1) in *. clearbody s2. destruct (view_no s2 <? v); [|exact I2].
  destruct (try_start_spec n0 now v s2 I2) as (s3 & _ & I3 & _ & [(-> & _)|(-> & I4)]); assumption.
Qed.
Lemma send_inv n0 now v why s : inv n0 s -> inv n0 (send_instance_change window now v why s).
Proof. intros I. apply on_verified_inv, note_inv; [exact I|exact Logic.I|exact Logic.I]. Qed.
Lemma fill_one v d : forall c, NoDup (map fst d) -> wf c -> (forall y vt, In (y, vt) d -> ~ In y (map fst (at_view c v))) ->
  let c' := fold_left (fun c y => cache_add v (fst y) (snd y) c) d c in
  wf c' /\ forall v', at_view c' v' = if v' =? v then at_view c v ++ d else at_view c v'.
Proof.
  induction d as [|(y, vt) d IH]; intros c N W F c'; subst c'; simpl.
  - split; [exact W|]. intros v'. destruct (Nat.eqb_spec v' v) as [->|Ne]; [rewrite app_nil_r|]; reflexivity.
  - inversion N as [|? ? N1 N2]; subst.
    assert (Ac : forall v', at_view (cache_add v y vt c) v' = if v' =? v then at_view c v ++ [(y, vt)] else at_view c v').
    { intros v'. unfold cache_add. change (match get v c with Some d => d | None => [] end) with (at_view c v).
      rewrite (set_new y vt (at_view c v)) by (apply get_none, (F y vt); left; reflexivity). unfold at_view at 1. rewrite get_set. destruct (v' =? v); reflexivity. }
    destruct (IH (cache_add v y vt c) N2 (cache_add_wf v y vt c W)) as (A & B).
    + intros z zt Z. rewrite Ac, Nat.eqb_refl, map_app, in_app_iff. simpl. intros [X|[X|[]]].
      * revert X. apply (F z zt). right. exact Z.
      * subst z. apply N1. apply (in_map fst) in Z. exact Z.
    + split; [exact A|]. intros v'. rewrite B, !Ac, Nat.eqb_refl. destruct (v' =? v); [rewrite <- app_assoc|]; reflexivity.
Qed.
Lemma fill_cache_at d : wf d -> wf (fill_cache d) /\ forall v, at_view (fill_cache d) v = at_view d v.
Proof.
  intros W. unfold fill_cache.
  assert (G : forall d c, wf d -> wf c -> (forall v, In v (map fst d) -> at_view c v = []) ->
    wf (fold_left (fun c x => fold_left (fun c y => cache_add (fst x) (fst y) (snd y) c) (snd x) c) d c) /\
    forall v, at_view (fold_left (fun c x => fold_left (fun c y => cache_add (fst x) (fst y) (snd y) c) (snd x) c) d c) v =
      match get v d with Some x => x | None => at_view c v end).
  { clear. induction d as [|(v0, d0) d IH]; intros c (N & W) Wc F; simpl; [split; [exact Wc|reflexivity]|].
    inversion N as [|? ? N1 N2]; subst.
    assert (Nd : NoDup (map fst d0)) by (apply (W v0 d0); simpl; rewrite Nat.eqb_refl; reflexivity).
    assert (E0 : at_view c v0 = []) by (apply F; left; reflexivity).
    destruct (fill_one v0 d0 c Nd Wc) as (A & B); [rewrite E0; intros y vt _ []|].
    set (c1 := fold_left (fun c y => cache_add v0 (fst y) (snd y) c) d0 c) in *. clearbody c1.
    destruct (IH c1) as (C & D).
    - split; [exact N2|]. intros v x Gx. apply (W v). simpl. destruct (Nat.eqb_spec v v0) as [->|Ne]; [|exact Gx].
      apply get_none in N1. congruence.
    - exact A.
    - intros v I. rewrite B. destruct (Nat.eqb_spec v v0) as [->|Ne]; [contradiction|]. apply F. right. exact I.
    - split; [exact C|]. intros v. rewrite D, B. destruct (Nat.eqb_spec v v0) as [->|Ne]; [|reflexivity].
      apply get_none in N1. rewrite N1, E0. reflexivity. }
  destruct (G d [] W) as (A & B); [split; [apply NoDup_nil|intros v x; discriminate]|reflexivity|]. split; [exact A|]. intros v. rewrite B. reflexivity.
Qed.
Lemma remove_view_inv n0 w s : inv n0 s -> inv n0 (remove_view w s).
Proof.
  intros [(W & Wd & H) B C D E].
  assert (A1 : forall v, at_view (filter (fun x => w <? fst x) (ic s)) v = if w <? v then at_view (ic s) v else []).
  { intros v. unfold at_view. rewrite (get_filter (fun x => w <? x)). destruct (w <? v); reflexivity. }
  assert (A2 : forall v, at_view (filter (fun x => (w <? fst x) || negb (match get (fst x) (ic s) with Some _ => true | None => false end)) (db s)) v = if w <? v then at_view (ic s) v else []).
  { intros v. unfold at_view. rewrite (get_filter (fun k => (w <? k) || negb (match get k (ic s) with Some _ => true | None => false end))).
    pose proof (H v) as Hv. unfold at_view in Hv. destruct (w <? v); simpl; [exact Hv|]. destruct (get v (ic s)); simpl; [reflexivity|exact Hv]. }
  constructor; simpl.
  - split; [|split].
    + simpl. destruct W as (N & W). split; [apply nodup_filter, N|]. intros v d G. rewrite (get_filter (fun x => w <? x)) in G. destruct (w <? v); [apply (W v d G)|discriminate].
    + simpl. destruct Wd as (N & Wd). split; [apply nodup_filter, N|]. intros v d G.
      rewrite (get_filter (fun k => (w <? k) || negb (match get k (ic s) with Some _ => true | None => false end))) in G.
      destruct (_ || _); [apply (Wd v d G)|discriminate].
    + simpl. intros v. rewrite A1, A2. reflexivity.
  - intros v y vt I. rewrite A1 in I. rewrite votes_snoc. unfold tally. destruct (w <? v) eqn:L; [|destruct I]. apply Nat.ltb_lt in L.
    destruct (Nat.leb_spec v w); [lia|]. apply B, I.
  - rewrite view_snoc. exact C.
  - rewrite pool_snoc. exact D.
  - apply log_ok_snoc; [exact E|exact Logic.I].
Qed.
Lemma step_inv n0 s o : inv n0 s -> inv n0 (step s o).
Proof.
  intros I. destruct o as [now v why frm a b c|now a b asked why|v| |v|n]; cbn [Trigger_Model.step].
  - unfold process_instance_change. destruct a; [|exact I]. destruct b; [|exact I]. simpl. destruct (v <=? view_no s); [exact I|].
    pose proof (on_verified_inv n0 now v frm why s I) as I1. set (s1 := on_verified window now v frm why s) in *. clearbody s1.
    unfold has_inst_chng_from. pose proof (update_votes_inv n0 now v s1 I1) as I2. set (s2 := update_votes window now v s1) in *. clearbody s2.
    match goal with |- context [if ?b then _ else _] => destruct b end; [exact I2|]. destruct c; simpl; [apply send_inv, I2|exact I2].
  - unfold process_vote. apply send_inv, I.
  - destruct I as [A B C D E]. constructor; simpl; auto.
    + intros v' y vt X. rewrite votes_snoc. apply B, X.
    + rewrite view_snoc. reflexivity.
    + rewrite pool_snoc. exact D.
    + apply log_ok_snoc; [exact E|exact Logic.I].
  - apply remove_view_inv, I.
  - destruct I as [(W & Wd & H) B C D E]. destruct (fill_cache_at (db s) Wd) as (F1 & F2). constructor; simpl.
    + split; [exact F1|split; [exact Wd|]]. intros v'. symmetry. apply F2.
    + intros v' y vt X. rewrite votes_snoc. apply B. rewrite <- H, <- F2. exact X.
    + rewrite view_snoc. reflexivity.
    + rewrite pool_snoc. exact D.
    + apply log_ok_snoc; [exact E|exact Logic.I].
  - destruct I as [A B C D E]. constructor; simpl; auto.
    + intros v' y vt X. rewrite votes_snoc. apply B, X.
    + rewrite view_snoc. exact C.
    + rewrite pool_snoc. reflexivity.
    + apply log_ok_snoc; [exact E|exact Logic.I].
Qed.
Lemma run_inv n ops : inv n (run window n ops).
Proof.
  unfold run. assert (I : inv n (init n)).
  { constructor; simpl; auto; [|intros l1 x l2 E; destruct l1; discriminate].
    split; [|split]; [split; [apply NoDup_nil|intros v d; discriminate]..|reflexivity]. }
  revert I. generalize (init n). induction ops as [|o ops IH]; intros s I; simpl; [exact I|]. apply IH, step_inv, I.
Qed.

(** *** with a clock that does not go back, a vote is forgotten only when it is outdated *)
Definition minv (t0 : Z) (s : state) : Prop := forall v y t, In (y, t) (votes v (log s)) ->
  (exists vt, In (y, vt) (at_view (ic s) v) /\ (t <= timestamp vt)%Z) \/ ~ fresh window t0 t.
Lemma stale_later t0 now t : (t0 <= now)%Z -> ~ fresh window t0 t -> ~ fresh window now t.
Proof. unfold fresh. lia. Qed.
Lemma minv_later t0 now s : (t0 <= now)%Z -> minv t0 s -> minv now s.
Proof. intros L M v y t I. destruct (M v y t I) as [H|H]; [left; exact H|right; apply (stale_later t0 now t L H)]. Qed.
Lemma minv_same now s s' : log s' = log s -> (forall v, at_view (ic s') v = at_view (ic s) v) -> minv now s -> minv now s'.
Proof. intros L A M v y t. rewrite L, A. apply M. Qed.
Lemma minv_filter now v s s' : log s' = log s ->
  (forall v', at_view (ic s') v' = if v' =? v then filter (fun x => alive now (snd x)) (at_view (ic s) v) else at_view (ic s) v') ->
  minv now s -> minv now s'.
Proof.
  intros L A M v' y t I. rewrite L in I. rewrite A. destruct (M v' y t I) as [(vt & V1 & V2)|H]; [|auto].
  destruct (Nat.eqb_spec v' v) as [->|N]; [|left; eauto]. destruct (alive now vt) eqn:Al.
  - left. exists vt. split; [apply filter_In; auto|exact V2].
  - right. intros F. assert (alive now vt = true); [|congruence]. apply alive_fresh. revert F. unfold fresh. lia.
Qed.
Lemma live_ok_snoc n0 l x : live_ok window n0 l -> (forall v y t, x <> LVote v y t) -> live_ok window n0 (l ++ [x]).
Proof.
  intros H N l1 v y t l2 E. destruct l2 as [|z l2] using rev_ind.
  - apply app_inj_tail in E as (_ & E). destruct (N v y t E).
  - clear IHl2. change (l1 ++ LVote v y t :: l2 ++ [z]) with (l1 ++ (LVote v y t :: l2) ++ [z]) in E. rewrite app_assoc in E.
    apply app_inj_tail in E as (E & _). intros A B. destruct (H l1 v y t l2 E A B) as (l2' & ->). exists (l2' ++ [z]). reflexivity.
Qed.
Record linv (n0 : nat) (t0 : Z) (s : state) : Prop := { l_inv : inv n0 s; l_m : minv t0 s; l_live : live_ok window n0 (log s) }.
Lemma split_three {A} (a b : A) m : forall l l1 l2, (l ++ [a]) ++ m = l1 ++ b :: l2 ->
  (exists r, l = l1 ++ b :: r /\ l2 = r ++ a :: m) \/ (l1 = l /\ b = a /\ l2 = m) \/ In b m.
Proof.
  induction l as [|c l IH]; intros [|d l1] l2 E; simpl in E.
  - injection E as <- <-. auto.
  - injection E as _ E. right. right. rewrite E. apply in_or_app. right. left. reflexivity.
  - injection E as <- <-. left. exists l. split; [reflexivity|]. rewrite <- app_assoc. reflexivity.
  - injection E as <- E. destruct (IH l1 l2 E) as [(r & -> & ->)|[(-> & -> & ->)|H]]; [left; exists r; auto|auto|auto].
Qed.
Lemma live_vote n0 l v x t m : live_ok window n0 l -> (forall a b c, ~ In (LVote a b c) m) ->
  (view l < v -> quorum_at window n0 (l ++ [LVote v x t]) v t -> exists m', m = LStart v t :: m') ->
  live_ok window n0 ((l ++ [LVote v x t]) ++ m).
Proof.
  intros Lv Nv H l1 v' y t' l2 E Q1 Q2. apply split_three in E as [(r & -> & ->)|[(-> & E & ->)|E]].
  - destruct (Lv l1 v' y t' r eq_refl Q1 Q2) as (m' & ->). exists (m' ++ LVote v x t :: m). reflexivity.
  - injection E as -> -> ->. apply H; assumption.
  - destruct (Nv _ _ _ E).
Qed.
Lemma absent c v x : (match get v c with Some d => match get x d with Some _ => true | None => false end | None => false end) = false ->
  get x (at_view c v) = None.
Proof. unfold at_view. destruct (get v c) as [d|]; [|reflexivity]. destruct (get x d); [discriminate|reflexivity]. Qed.
Lemma add_vote_minv now v x why s : get x (at_view (ic s) v) = None -> minv now s -> minv now (add_vote now v x why s).
Proof.
  intros G M1 v' y t Y. rewrite add_vote_at. rewrite set_new by exact G. simpl in Y. rewrite votes_snoc in Y. unfold tally in Y.
  rewrite (Nat.eqb_sym v v') in Y. destruct (Nat.eqb_spec v' v) as [->|Ne]; [|apply M1, Y]. apply in_app_or in Y as [Y|[Y|[]]].
  - destruct (M1 v y t Y) as [(vt & Z1 & Z2)|Z]; [|auto]. left. exists vt. split; [apply in_or_app; auto|exact Z2].
  - injection Y as <- <-. left. exists (Vote now why). split; [apply in_or_app; right; left; reflexivity|simpl; lia].
Qed.
Lemma on_verified_live n0 t0 now v x why s : (t0 <= now)%Z -> linv n0 t0 s -> linv n0 now (on_verified window now v x why s).
Proof.
  intros Lt [I M Lv]. assert (Iv : inv n0 (on_verified window now v x why s)) by apply on_verified_inv, I.
  revert Iv. unfold on_verified, has_inst_chng_from.
  pose proof (update_votes_inv n0 now v s I) as I1. destruct (update_votes_spec now v s (i_stored n0 s I)) as ([L1 V1 N1] & _ & A1).
  pose proof (minv_filter now v s _ L1 A1 (minv_later t0 now s Lt M)) as M1. set (s1 := update_votes window now v s) in *. clearbody s1.
  match goal with |- context [if ?b then _ else _] => destruct b eqn:Has end; [intros _; constructor; [exact I1|exact M1|rewrite L1; exact Lv]|].
  apply absent in Has. intros Iv. pose proof (add_vote_inv n0 now v x why s1 I1) as I2. pose proof (add_vote_minv now v x why s1 Has M1) as M2.
  assert (A2 : In (x, Vote now why) (at_view (ic (add_vote now v x why s1)) v)).
  { rewrite add_vote_at, Nat.eqb_refl, set_new by exact Has. apply in_or_app. right. left. reflexivity. }
  assert (L2 : log (add_vote now v x why s1) = log s ++ [LVote v x now]) by (simpl; rewrite L1; reflexivity).
  assert (V2 : view_no (add_vote now v x why s1) = view (log s)).
  { transitivity (view_no s1); [reflexivity|]. rewrite V1. apply (i_view n0 s I). }
  set (s2 := add_vote now v x why s1) in *. clearbody s2.
  destruct (view_no s2 <? v) eqn:Lw.
  - apply Nat.ltb_lt in Lw. destruct (try_start_spec n0 now v s2 I2) as (s3 & [L3 V3 N3] & I3 & A3 & H).
    pose proof (minv_filter now v s2 s3 L3 A3 M2) as M3. destruct H as [(E & H)|(E & _)]; rewrite E in *; (constructor; [exact Iv| |]).
    + exact M3.
    + rewrite L3, L2. rewrite <- (app_nil_r (log s ++ [LVote v x now])). apply live_vote; [exact Lv|intros a b c []|].
      intros _ (ss & Nd & Ln & P). exfalso. specialize (H Lw). specialize (A3 v). rewrite Nat.eqb_refl in A3.
      assert (K : forall y t, In (y, t) (votes v (log s2)) -> fresh window now t -> In y (map fst (at_view (ic s3) v))).
      { intros y t Y F. destruct (M2 v y t Y) as [(vt & Z1 & Z2)|Z]; [|contradiction]. rewrite A3. apply in_map_iff. exists (y, vt). split; [reflexivity|].
        apply filter_In. split; [exact Z1|]. apply alive_fresh. revert F. unfold fresh. simpl. lia. }
      assert (Kx : In x (map fst (at_view (ic s3) v))).
      { rewrite A3. apply in_map_iff. exists (x, Vote now why). split; [reflexivity|]. apply filter_In. split; [exact A2|].
        apply alive_fresh. unfold fresh. simpl. lia. }
      destruct H as [H|H]; [|rewrite H in Kx; destruct Kx].
      assert (Lc : (length ss <= length (map fst (at_view (ic s3) v)))%nat).
      { apply NoDup_incl_length; [exact Nd|]. intros y Y. destruct (P y Y) as (t & T1 & T2). apply (K y t); [rewrite L2; exact T1|exact T2]. }
      rewrite map_length in Lc. rewrite (i_pool n0 s2 I2), L2 in H. lia.
    + intros v' y t Y. simpl in Y. rewrite votes_snoc in Y. apply M3, Y.
    + cbn [note log]. rewrite L3, L2. apply live_vote; [exact Lv| |intros _ _; exists []; reflexivity]. intros a b c [X|[]]. discriminate.
  - constructor; [exact I2|exact M2|]. rewrite L2. apply Nat.ltb_ge in Lw. rewrite <- (app_nil_r (log s ++ [LVote v x now])).
    apply live_vote; [exact Lv|intros a b c []|]. lia.
Qed.
Lemma send_live n0 t0 now v why s : (t0 <= now)%Z -> linv n0 t0 s -> linv n0 now (send_instance_change window now v why s).
Proof.
  intros Lt [I M Lv]. apply (on_verified_live n0 t0); [exact Lt|]. constructor.
  - apply note_inv; [exact I|exact Logic.I|exact Logic.I].
  - intros v' y t Y. simpl in Y. rewrite votes_snoc in Y. apply M, Y.
  - apply live_ok_snoc; [exact Lv|discriminate].
Qed.

Definition clock (o : op) : option Z := match o with OInstanceChange now _ _ _ _ _ _ | OVoteFor now _ _ _ _ => Some now | _ => None end.
Definition later (t0 : Z) (o : op) : Prop := match clock o with Some now => (t0 <= now)%Z | None => True end.
Definition time (t0 : Z) (o : op) : Z := match clock o with Some now => now | None => t0 end.
Lemma step_live n0 t0 s o : later t0 o -> linv n0 t0 s -> linv n0 (time t0 o) (step s o).
Proof.
  intros Lt Iv. pose proof Iv as [I M Lv]. pose proof (step_inv n0 s o I) as Is. unfold later, time in *.
  destruct o as [now v why frm a b c|now a b asked why|v| |v|n]; cbn [Trigger_Model.step clock] in *.
  - clear Is. assert (Same : linv n0 now s) by (constructor; [exact I|apply (minv_later t0 now s Lt M)|exact Lv]).
    unfold process_instance_change. destruct a; [|exact Same]. destruct b; [|exact Same]. simpl. destruct (v <=? view_no s); [exact Same|].
    pose proof (on_verified_live n0 t0 now v frm why s Lt Iv) as I1. set (s1 := on_verified window now v frm why s) in *. clearbody s1.
    unfold has_inst_chng_from. destruct I1 as [I1 M1 Lv1].
    destruct (update_votes_spec now v s1 (i_stored n0 s1 I1)) as ([L2 V2 N2] & _ & A2).
    assert (I2 : linv n0 now (update_votes window now v s1)).
    { constructor; [apply update_votes_inv, I1|exact (minv_filter now v s1 _ L2 A2 M1)|rewrite L2; exact Lv1]. }
    set (s2 := update_votes window now v s1) in *. clearbody s2.
    match goal with |- context [if ?b then _ else _] => destruct b end; [exact I2|]. destruct c; simpl; [apply (send_live n0 now); [lia|exact I2]|exact I2].
  - apply (send_live n0 t0); assumption.
  - constructor; [exact Is| |apply live_ok_snoc; [exact Lv|discriminate]]. intros v' y t Y. simpl in Y. rewrite votes_snoc in Y. apply M, Y.
  - constructor; [exact Is| |apply live_ok_snoc; [exact Lv|discriminate]]. intros v' y t Y. simpl in *. rewrite votes_snoc in Y. unfold tally in Y.
    destruct (Nat.leb_spec v' (view_no s)); [destruct Y|]. destruct (M v' y t Y) as [(vt & A & B)|A]; [left; exists vt; split; [|exact B]|right; exact A].
    unfold at_view in *. rewrite (get_filter (fun x => view_no s <? x)). destruct (Nat.ltb_spec (view_no s) v'); [exact A|lia].
  - constructor; [exact Is| |apply live_ok_snoc; [exact Lv|discriminate]]. intros v' y t Y. simpl in *. rewrite votes_snoc in Y.
    destruct (i_stored n0 s I) as (W & Wd & H). destruct (fill_cache_at (db s) Wd) as (_ & F). rewrite F, H. apply M, Y.
  - constructor; [exact Is| |apply live_ok_snoc; [exact Lv|discriminate]]. intros v' y t Y. simpl in Y. rewrite votes_snoc in Y. apply M, Y.
Qed.
End Proofs.

(** ** C26 *)
(** A view change is asked for only to a view greater than the current one, when n-f distinct nodes
    have a vote recorded for exactly that view which is not outdated.  Restarts are among the operations. *)
Theorem C26_quorum : forall window n ops, log_ok window n (log (run window n ops)).
Proof. intros. apply (i_log window n), run_inv. Qed.

(** As long as the clock does not go back, a vote which completes the quorum starts the view change at once. *)
Fixpoint clock_ok (t0 : Z) (ops : list op) : Prop :=
  match ops with [] => True | o :: ops' => later t0 o /\ clock_ok (time t0 o) ops' end.
Theorem C26_starts : forall window n ops t0, clock_ok t0 ops -> live_ok window n (log (run window n ops)).
Proof.
  intros window n ops t0 C. unfold run. assert (I : linv window n t0 (init n)).
  { constructor; [apply (run_inv window n [])|intros v y t []|]. intros l1 v x t l2 E. destruct l1; discriminate. }
  revert t0 C I. generalize (init n). induction ops as [|o ops IH]; intros s t0 C I; simpl; [apply (l_live window n t0), I|].
  destruct C as (C1 & C2). apply (IH _ (time t0 o) C2). apply step_live; assumption.
Qed.

(** A vote of a connected node for a later view is in the tally afterwards, and not outdated. *)
Theorem C26_recorded : forall window n ops now v why x degraded,
  let s := run window n ops in view (log s) < v ->
  let s' := step window s (OInstanceChange now v why x true true degraded) in
  exists t, In (x, t) (votes v (log s')) /\ fresh window now t.
Proof.
  intros window n ops now v why x degraded s Hv s'. assert (I : inv window n s) by apply run_inv.
  assert (K : forall s0 y w, inv window n s0 -> exists t, In (y, t) (votes v (log (on_verified window now v y w s0))) /\ fresh window now t).
  { clear. intros s0 y w I. unfold on_verified, has_inst_chng_from. pose proof (update_votes_inv window n now v s0 I) as I1.
    destruct (update_votes_spec window now v s0 (i_stored window n s0 I)) as ([L1 V1 N1] & _ & A1). specialize (A1 v). rewrite Nat.eqb_refl in A1.
    set (s1 := update_votes window now v s0) in *. clearbody s1.
    match goal with |- context [if ?b then _ else _] => destruct b eqn:Has end.
    - destruct (get v (ic s1)) as [d|] eqn:G; [|discriminate]. destruct (get y d) as [vt|] eqn:Gy; [|discriminate].
      assert (Y : In (y, vt) (at_view (ic s1) v)) by (unfold at_view; rewrite G; apply get_in, Gy).
      exists (timestamp vt). split; [apply (i_votes window n s1 I1), Y|]. rewrite A1 in Y. apply filter_In in Y as (_ & Y). apply alive_fresh, Y.
    - exists now. split; [|unfold fresh; lia]. pose proof (add_vote_inv window n now v y w s1 I1) as I2.
      assert (Y : In (y, now) (votes v (log (add_vote now v y w s1)))).
      { simpl. rewrite votes_snoc. unfold tally. rewrite Nat.eqb_refl. apply in_or_app. right. left. reflexivity. }
      set (s2 := add_vote now v y w s1) in *. clearbody s2. destruct (view_no s2 <? v); [|exact Y].
      destruct (try_start_spec window n now v s2 I2) as (s3 & [L3 _ _] & _ & _ & [(-> & _)|(-> & _)]); simpl; rewrite L3; [exact Y|].
      rewrite votes_snoc. exact Y. }
  unfold s', step, process_instance_change. simpl. rewrite (i_view window n s I). destruct (Nat.leb_spec v (view (log s))); [lia|].
  destruct (K s x why I) as (t & T1 & T2). exists t. split; [|exact T2].
  pose proof (on_verified_inv window n now v x why s I) as I1. set (s1 := on_verified window now v x why s) in *. clearbody s1.
  unfold has_inst_chng_from. destruct (update_votes_spec window now v s1 (i_stored window n s1 I1)) as ([L2 _ _] & _ & _).
  pose proof (update_votes_inv window n now v s1 I1) as I2. rewrite <- L2 in T1. set (s2 := update_votes window now v s1) in *. clearbody s2.
  match goal with |- context [if ?b then _ else _] => destruct b end; [exact T1|]. destruct degraded; simpl; [|exact T1].
  unfold send_instance_change, on_verified, has_inst_chng_from.
  assert (I3 : inv window n (note (LSend v) s2)) by (apply note_inv; [exact I2|exact Logic.I|exact Logic.I]).
  assert (T3 : In (x, t) (votes v (log (note (LSend v) s2)))) by (simpl; rewrite votes_snoc; exact T1).
  set (s3 := note (LSend v) s2) in *. clearbody s3.
  destruct (update_votes_spec window now v s3 (i_stored window n s3 I3)) as ([L4 _ _] & _ & _).
  pose proof (update_votes_inv window n now v s3 I3) as I4. rewrite <- L4 in T3. set (s4 := update_votes window now v s3) in *. clearbody s4.
  match goal with |- context [if ?b then _ else _] => destruct b end; [exact T3|]. pose proof (add_vote_inv window n now v 0 26%Z s4 I4) as I5.
  assert (T5 : In (x, t) (votes v (log (add_vote now v 0 26%Z s4)))).
  { simpl. rewrite votes_snoc. unfold tally. rewrite Nat.eqb_refl. apply in_or_app. left. exact T3. }
  set (s5 := add_vote now v 0 26%Z s4) in *. clearbody s5. destruct (view_no s5 <? v); [|exact T5].
  destruct (try_start_spec window n now v s5 I5) as (s6 & [L6 _ _] & _ & _ & [(-> & _)|(-> & _)]); simpl; rewrite L6; [exact T5|].
  rewrite votes_snoc. exact T5.
Qed.

(** A vote in the log came from that node, for that view and at that time, while it was connected; or it is this node's own. *)
Definition new_votes (P : nat -> nat -> Z -> Prop) (s s' : state) : Prop :=
  exists l, log s' = log s ++ l /\ forall v x t, In (LVote v x t) l -> P v x t.
Lemma nv_refl P s s' : log s' = log s -> new_votes P s s'.
Proof. intros E. exists []. split; [rewrite E; symmetry; apply app_nil_r|intros v x t []]. Qed.
Lemma nv_trans P a b c : new_votes P a b -> new_votes P b c -> new_votes P a c.
Proof.
  intros (l & E & H) (l' & E' & H'). exists (l ++ l'). split; [rewrite E', E, app_assoc; reflexivity|]. intros v x t X. apply in_app_or in X as [X|X]; auto.
Qed.
Lemma nv_one (P : nat -> nat -> Z -> Prop) s s' e : log s' = log s ++ [e] -> (forall v x t, e = LVote v x t -> P v x t) -> new_votes P s s'.
Proof. intros E H. exists [e]. split; [exact E|]. intros v x t [X|[]]. auto. Qed.
Lemma update_votes_log window now v s : log (update_votes window now v s) = log s.
Proof.
  unfold update_votes. destruct (window <=? 0)%Z; [reflexivity|]. destruct (get v (ic s)); [|reflexivity].
  destruct (drop_outdated window now v d (ic s)) as (c, ch). destruct ch; reflexivity.
Qed.
Lemma nv_on_verified window now v x why s (P : nat -> nat -> Z -> Prop) : P v x now -> new_votes P s (on_verified window now v x why s).
Proof.
  intros H. unfold on_verified, has_inst_chng_from. apply (nv_trans _ _ (update_votes window now v s)); [apply nv_refl, update_votes_log|].
  set (s1 := update_votes window now v s). clearbody s1. match goal with |- context [if ?b then _ else _] => destruct b end; [apply nv_refl; reflexivity|].
  apply (nv_trans _ _ (add_vote now v x why s1)); [eapply nv_one; [reflexivity|]; intros a b c E; injection E as <- <- <-; exact H|].
  set (s2 := add_vote now v x why s1). clearbody s2. destruct (view_no s2 <? v); [|apply nv_refl; reflexivity].
  unfold try_start, has_quorum. apply (nv_trans _ _ (update_votes window now v s2)); [apply nv_refl, update_votes_log|].
  set (s3 := update_votes window now v s2). clearbody s3. match goal with |- context [if negb ?b then _ else _] => destruct b end; simpl; [|apply nv_refl; reflexivity].
  destruct (view_no s3 <? v); simpl; [|apply nv_refl; reflexivity]. eapply nv_one; [reflexivity|]. discriminate.
Qed.
Lemma nv_send window now v why s (P : nat -> nat -> Z -> Prop) : P v 0 now -> new_votes P s (send_instance_change window now v why s).
Proof.
  intros H. unfold send_instance_change. apply (nv_trans _ _ (note (LSend v) s)); [eapply nv_one; [reflexivity|discriminate]|apply nv_on_verified, H].
Qed.
Theorem C26_received : forall window n ops v x t, In (LVote v x t) (log (run window n ops)) ->
  x = 0 \/ exists why degraded, In (OInstanceChange t v why x true true degraded) ops.
Proof.
  intros window n ops v x t. unfold run. induction ops as [|o ops IH] using rev_ind; simpl; [intros []|].
  rewrite fold_left_app. simpl. set (s := fold_left (step window) ops (init n)) in *. clearbody s.
  assert (H : new_votes (fun v x t => x = 0 \/ exists why degraded, o = OInstanceChange t v why x true true degraded) s (step window s o)).
  { destruct o as [now w why frm a b c|now a b asked why|w| |w|m]; cbn [step].
    - unfold process_instance_change. destruct a; [|apply nv_refl; reflexivity]. destruct b; [|apply nv_refl; reflexivity]. simpl.
      destruct (w <=? view_no s); [apply nv_refl; reflexivity|].
      apply (nv_trans _ _ (on_verified window now w frm why s)); [apply nv_on_verified; right; eauto|].
      set (s1 := on_verified window now w frm why s). clearbody s1. unfold has_inst_chng_from.
      apply (nv_trans _ _ (update_votes window now w s1)); [apply nv_refl, update_votes_log|]. set (s2 := update_votes window now w s1). clearbody s2.
      match goal with |- context [if ?b then _ else _] => destruct b end; [apply nv_refl; reflexivity|]. destruct c; simpl; [|apply nv_refl; reflexivity].
      apply nv_send. auto.
    - apply nv_send. auto.
    - eapply nv_one; [reflexivity|discriminate].
    - eapply nv_one; [reflexivity|discriminate].
    - eapply nv_one; [reflexivity|discriminate].
    - eapply nv_one; [reflexivity|discriminate]. }
  destruct H as (l & E & H). rewrite E. intros X. apply in_app_or in X as [X|X].
  - destruct (IH X) as [A|(w & d & A)]; [auto|right; exists w, d; apply in_or_app; auto].
  - destruct (H v x t X) as [A|(w & d & A)]; [auto|right; exists w, d; apply in_or_app; right; left; exact A].
Qed.

(** A restart loses no vote and brings back none: every view has the same votes as before. *)
Theorem C26_restart : forall window n ops w v, let s := run window n ops in
  at_view (ic (step window s (ORestart w))) v = at_view (ic s) v.
Proof.
  intros window n ops w v s. destruct (i_stored window n s (run_inv window n ops)) as (W & Wd & H). simpl.
  destruct (fill_cache_at (db s) Wd) as (_ & F). rewrite F. apply H.
Qed.

(** four nodes, window 100: nodes 1 and 2 vote for view 1; restart; node 3 votes in time, then node 2's vote is too old for view 2 *)
Example C26_ex : log (run 100 4 [OInstanceChange 10 1 25 1 true true false; OInstanceChange 20 1 25 2 true true false; OInstanceChange 25 1 25 2 true true false;
     ORestart 0; OInstanceChange 30 1 25 3 true true false; OInstanceChange 40 2 25 2 true true false; OView 1; OAccepted;
     OInstanceChange 100 2 25 3 true true false; OVoteFor 145 false false None 26]) =
  [LVote 1 1 10; LVote 1 2 20; LView 0; LVote 1 3 30; LStart 1 30; LVote 2 2 40; LView 1; LForget 1; LVote 2 3 100; LSend 2; LVote 2 0 145].
Proof. vm_compute. reflexivity. Qed.
Example C26_ex_clock : clock_ok 0 [OInstanceChange 10 1 25 1 true true false; OInstanceChange 20 1 25 2 true true false; ORestart 0; OVoteFor 145 false false None 26].
Proof. refine (conj _ (conj _ (conj _ (conj _ Logic.I)))); vm_compute; try discriminate; exact Logic.I. Qed.

(** The window in real time does not survive a restart of the machine: the clock is
    time.perf_counter (timer.py:30), which then starts anew, and its readings are what the store
    holds.  Here the clock starts at 0 with the restart and every later reading is beyond the window,
    so the vote given before the restart is too old; yet it still counts. *)
Theorem C26_window_refuted : exists old ops v now,
  clock_ok 0 ops /\ (forall o t, In o ops -> clock o = Some t -> (0 + 100 < t)%Z) /\
  In (LStart v now) (log (run 100 4 (old :: ORestart 0 :: ops))) /\
  ~ In (LStart v now) (log (run 100 4 (ORestart 0 :: ops))).
Proof.
  exists (OInstanceChange 5000 1 25 1 true true false),
    [OInstanceChange 3990 1 25 2 true true false; OInstanceChange 4000 1 25 3 true true false], 1, 4000%Z.
  split; [|split; [|split]].
  - refine (conj _ (conj _ Logic.I)); vm_compute; discriminate.
  - intros o t [<-|[<-|[]]] E; injection E as <-; lia.
  - vm_compute. auto 10.
  - vm_compute. intros X. repeat (destruct X as [X|X]; [discriminate|]). exact X.
Qed.

Print Assumptions C26_quorum.
Print Assumptions C26_starts.
Print Assumptions C26_recorded.
Print Assumptions C26_received.
Print Assumptions C26_restart.
Print Assumptions C26_window_refuted.
