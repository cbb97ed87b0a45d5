(** Property C25: a request is forwarded to ordering once, and only with f+1 propagates. *)
From Coq Require Import List Arith ZArith Bool Lia.
From Verif Require Import Quorum_Model Propagate_Model.
Import ListNotations.

(** ** Specification, over what happened alone *)
Definition key_of (x : entry) : option nat :=
  match x with
  | LAdd k | LProp k _ _ | LSend k | LForward k _ _ | LFree k | LExec k | LRemove k | LDrop k => Some k
  | LPool _ => None
  end.
(** what happened to the record of key [k] since it was made; None if there is no record *)
Definition live (k : nat) (h : option (list entry)) (x : entry) : option (list entry) :=
  match key_of x with
  | Some k' => if k' =? k then
      match x with
      | LAdd _ => Some []
      | LRemove _ | LDrop _ => None
      | _ => match h with Some h => Some (h ++ [x]) | None => None end
      end else h
  | None => h
  end.
Definition life (k : nat) (l : list entry) : option (list entry) := fold_left (live k) l None.
(** the number of validators *)
Definition pool (n0 : nat) (l : list entry) : nat := fold_left (fun n x => match x with LPool m => m | _ => n end) l n0.

Definition count_free (h : list entry) : nat := length (filter (fun x => match x with LFree _ => true | _ => false end) h).

(** distinct named senders of propagates, recorded in [h] *)
Definition propagators (k : nat) (h : list entry) (senders : list sender) : Prop :=
  NoDup senders /\ forall x, In x senders -> is_str x = true /\ exists r, In (LProp k x r) h.

(** What is claimed of an entry that comes after [l] in the log. *)
Definition entry_ok (n0 : nat) (l : list entry) (x : entry) : Prop :=
  match x with
  | LAdd k => life k l = None
  | LProp k _ r => life k l <> None /\ r_digest r = k
  | LSend k => exists h, life k l = Some h /\ ~ In (LSend k) h
  | LForward k _ r => exists h, life k l = Some h /\
      (* not forwarded before, *) (forall n' r', ~ In (LForward k n' r') h) /\
      (* f+1 nodes propagated it, *) (exists senders, propagators k h senders /\ getMaxFailures (pool n0 l) + 1 <= length senders) /\
      (* and the request is a propagated one with that digest *) r_digest r = k /\ exists y, In (LProp k y r) h
  | LRemove k => exists h, life k l = Some h /\ In (LExec k) h /\
      forall h1 n r h2, h = h1 ++ LForward k n r :: h2 -> n <= count_free h2
  | _ => True
  end.
Definition log_ok (n0 : nat) (l : list entry) : Prop := forall l1 x l2, l = l1 ++ x :: l2 -> entry_ok n0 l1 x.

(** ** Invariant *)
Local Open Scope Z_scope.
Record rec_ok (k : nat) (d : rstate) (h : list entry) : Prop := {
  r_key : r_digest (rs_request d) = k;
  r_nodup : NoDup (map fst (propagates d));
  r_prop : forall x r, In (x, r) (propagates d) -> In (LProp k x r) h /\ r_digest r = k;
  r_all : forall x r, In (LProp k x r) h -> In x (map fst (propagates d));
  r_send : In (LSend k) h -> In self (map fst (propagates d));
  r_fwd : forwarded d = true <-> exists n r, In (LForward k n r) h;
  r_to : forall h1 n r h2, h = h1 ++ LForward k n r :: h2 -> forwardedTo d = Z.of_nat n - Z.of_nat (count_free h2) /\ forall n' r', ~ In (LForward k n' r') h1;
  r_exec : executed d = true <-> In (LExec k) h;
  r_fin : finalised d <> None <-> forwarded d = true }.

Definition nfin (l : list (nat * rstate)) : Z :=
  Z.of_nat (length (filter (fun x => match finalised (snd x) with Some _ => true | None => false end) l)).
Record inv (n0 : nat) (s : state) : Prop := {
  i_rec : forall k, match get k (requests s), life k (log s) with
                    | None, None => True | Some d, Some h => rec_ok k d h | _, _ => False end;
  i_keys : NoDup (map fst (requests s));
  i_fin : fin_count s = nfin (requests s);
  i_pool : nodes s = pool n0 (log s);
  i_log : log_ok n0 (log s) }.

(** *** lemmas *)
Lemma sender_eqb_eq a b : sender_eqb a b = true <-> a = b.
Proof. destruct a, b; simpl; rewrite ?Nat.eqb_eq; split; congruence. Qed.
Lemma get_set k d l k' : get k' (set k d l) = if (k' =? k)%nat then Some d else get k' l.
Proof.
  induction l as [|(k0, d0) l IH]; simpl; [reflexivity|].
  destruct (Nat.eqb_spec k k0) as [<-|N]; simpl; [destruct (k' =? k)%nat; reflexivity|].
  rewrite IH. destruct (Nat.eqb_spec k' k0) as [->|N']; [|reflexivity]. destruct (Nat.eqb_spec k0 k); congruence.
Qed.
Lemma get_del k l k' : get k' (del k l) = if (k' =? k)%nat then None else get k' l.
Proof.
  induction l as [|(k0, d0) l IH]; simpl; [destruct (k' =? k)%nat; reflexivity|].
  destruct (Nat.eqb_spec k0 k) as [->|N]; simpl; [rewrite IH; destruct (k' =? k)%nat; reflexivity|].
  rewrite IH. destruct (Nat.eqb_spec k' k0) as [->|N']; [|reflexivity]. destruct (Nat.eqb_spec k0 k); congruence.
Qed.
Lemma get_in k l d : get k l = Some d -> In (k, d) l.
Proof.
  induction l as [|(k0, d0) l IH]; simpl; [discriminate|]. destruct (Nat.eqb_spec k k0) as [->|N]; [intros E; injection E as ->; auto|auto].
Qed.
Lemma get_none k l : get k l = None <-> ~ In k (map fst l).
Proof.
  induction l as [|(k0, d0) l IH]; simpl; [tauto|]. destruct (Nat.eqb_spec k k0) as [->|N]; [split; [discriminate|intuition]|].
  rewrite IH. intuition congruence.
Qed.
Lemma set_keys k d l : NoDup (map fst l) -> NoDup (map fst (set k d l)).
Proof.
  induction l as [|(k0, d0) l IH]; simpl; intros N; [apply NoDup_cons; [auto|apply NoDup_nil]|].
  inversion N as [|? ? N1 N2]; subst. destruct (Nat.eqb_spec k k0) as [->|Ne]; simpl; [apply NoDup_cons; assumption|].
  apply NoDup_cons; [|auto]. intros X. apply N1.
  assert (Y : get k0 (set k d l) <> None) by (rewrite get_none; tauto). rewrite get_set in Y.
  destruct (Nat.eqb_spec k0 k); [congruence|]. destruct (in_dec Nat.eq_dec k0 (map fst l)); [assumption|].
  apply get_none in n0. congruence.
Qed.
Lemma del_keys k l : NoDup (map fst l) -> NoDup (map fst (del k l)).
Proof.
  induction l as [|(k0, d0) l IH]; simpl; intros N; [apply NoDup_nil|]. inversion N as [|? ? N1 N2]; subst.
  destruct (negb _); simpl; [|auto]. apply NoDup_cons; [|auto]. intros X. apply N1.
  apply in_map_iff in X as (y & Y1 & Y2). apply filter_In in Y2 as (Y2 & _). rewrite <- Y1. apply in_map, Y2.
Qed.
Definition fin_z (d : option rstate) : Z := match d with Some d => match finalised d with Some _ => 1 | None => 0 end | None => 0 end.
Lemma nfin_set k d l : nfin (set k d l) = nfin l - fin_z (get k l) + fin_z (Some d).
Proof.
  unfold nfin. induction l as [|(k0, d0) l IH]; simpl; [destruct (finalised d); reflexivity|].
  destruct (Nat.eqb_spec k k0) as [->|N]; simpl; [destruct (finalised d), (finalised d0); simpl length; lia|].
  destruct (finalised d0); simpl length; simpl in IH; lia.
Qed.
Lemma nfin_del k l : NoDup (map fst l) -> nfin (del k l) = nfin l - fin_z (get k l).
Proof.
  unfold nfin, del. induction l as [|(k0, d0) l IH]; simpl; intros N; [reflexivity|]. inversion N as [|? ? N1 N2]; subst.
  specialize (IH N2). destruct (Nat.eqb_spec k0 k) as [->|Ne]; simpl.
  - rewrite Nat.eqb_refl. apply get_none in N1. rewrite N1 in IH. simpl in IH. unfold fin_z.
    destruct (finalised d0); simpl length; lia.
  - destruct (Nat.eqb_spec k k0); [congruence|]. destruct (finalised d0); simpl length; lia.
Qed.
Lemma life_snoc k l x : life k (l ++ [x]) = live k (life k l) x.
Proof. unfold life. rewrite fold_left_app. reflexivity. Qed.
Lemma pool_snoc n0 l x : pool n0 (l ++ [x]) = match x with LPool m => m | _ => pool n0 l end.
Proof. unfold pool. rewrite fold_left_app. reflexivity. Qed.
Lemma log_ok_snoc n0 l x : log_ok n0 l -> entry_ok n0 l x -> log_ok n0 (l ++ [x]).
Proof.
  intros H E l1 y l2 Eq. destruct l2 as [|z l2] using rev_ind.
  - apply app_inj_tail in Eq as (<- & <-). exact E.
  - clear IHl2. change (l1 ++ y :: l2 ++ [z]) with (l1 ++ (y :: l2) ++ [z]) in Eq. rewrite app_assoc in Eq.
    apply app_inj_tail in Eq as (-> & _). eapply H. reflexivity.
Qed.

(** one entry about [k], whose record becomes [d'] *)
Lemma inv_entry n0 s s' k x d' : inv n0 s -> key_of x = Some k -> log s' = log s ++ [x] ->
  nodes s' = nodes s -> entry_ok n0 (log s) x ->
  requests s' = (match d' with Some d => set k d (requests s) | None => del k (requests s) end) ->
  fin_count s' = fin_count s - fin_z (get k (requests s)) + fin_z d' ->
  match d', life k (log s ++ [x]) with None, None => True | Some d, Some h => rec_ok k d h | _, _ => False end ->
  inv n0 s'.
Proof.
  intros [A B C D E] Kx L N O Q F R. constructor; rewrite ?L, ?N.
  - intros k'. rewrite Q. destruct (Nat.eq_dec k' k) as [->|Ne].
    + destruct d' as [d|]; [rewrite get_set|rewrite get_del]; rewrite Nat.eqb_refl; exact R.
    + assert (G : get k' (match d' with Some d => set k d (requests s) | None => del k (requests s) end) = get k' (requests s)).
      { destruct d'; [rewrite get_set|rewrite get_del]; destruct (Nat.eqb_spec k' k); congruence. }
      rewrite G, life_snoc. unfold live. rewrite Kx. destruct (Nat.eqb_spec k k'); [congruence|]. apply A.
  - rewrite Q. destruct d'; [apply set_keys|apply del_keys]; exact B.
  - rewrite F, C, Q. destruct d' as [d|]; [rewrite nfin_set; reflexivity|rewrite nfin_del by exact B; simpl; lia].
  - rewrite D, pool_snoc. destruct x; try reflexivity. discriminate.
  - apply log_ok_snoc; assumption.
Qed.
Lemma inv_set n0 s s' k x d' h : inv n0 s -> key_of x = Some k -> log s' = log s ++ [x] ->
  nodes s' = nodes s -> requests s' = set k d' (requests s) -> entry_ok n0 (log s) x ->
  fin_count s' = fin_count s - fin_z (get k (requests s)) + fin_z (Some d') ->
  life k (log s ++ [x]) = Some h -> rec_ok k d' h -> inv n0 s'.
Proof. intros I K L N Q O F E R. apply (inv_entry n0 s s' k x (Some d') I K L N O Q F). rewrite E. exact R. Qed.
Lemma inv_del n0 s s' k x : inv n0 s -> key_of x = Some k -> log s' = log s ++ [x] ->
  nodes s' = nodes s -> requests s' = del k (requests s) -> entry_ok n0 (log s) x ->
  fin_count s' = fin_count s - fin_z (get k (requests s)) ->
  life k (log s ++ [x]) = None -> inv n0 s'.
Proof. intros I K L N Q O F E. apply (inv_entry n0 s s' k x None I K L N O Q); [rewrite F; simpl; lia|]. rewrite E. exact Logic.I. Qed.
(** no entry, the record of [k] changes in what [rec_ok] does not see *)
Lemma inv_quiet n0 s s' : inv n0 s -> log s' = log s -> nodes s' = nodes s -> requests s' = requests s -> fin_count s' = fin_count s -> inv n0 s'.
Proof. intros [] L N Q F. constructor; rewrite ?L, ?N, ?Q, ?F; assumption. Qed.

Lemma add_inv n0 r s : inv n0 s -> inv n0 (add r s) /\ get (r_digest r) (requests (add r s)) <> None.
Proof.
  intros I. unfold add. destruct (get (r_digest r) (requests s)) as [d|] eqn:G; [split; [exact I|congruence]|].
  pose proof (i_rec n0 s I (r_digest r)) as A. rewrite G in A. destruct (life (r_digest r) (log s)) as [h|] eqn:Lf; [destruct A|].
  split; [|simpl; rewrite get_set, Nat.eqb_refl; discriminate].
  apply (inv_entry n0 s _ (r_digest r) (LAdd (r_digest r)) (Some (new_rstate r))); auto; simpl.
  - rewrite G. simpl. lia.
  - rewrite life_snoc. unfold live. simpl. rewrite Nat.eqb_refl. constructor; simpl; try tauto; auto.
    + apply NoDup_nil.
    + split; [discriminate|]. intros (n & q & []).
    + intros h1 n q h2 X. destruct h1; discriminate.
    + split; [discriminate|contradiction].
    + split; [congruence|discriminate].
Qed.
(** splitting a history with one more entry at a forward *)
Lemma snoc_split (h : list entry) x h1 k n r h2 : h ++ [x] = h1 ++ LForward k n r :: h2 ->
  (h2 = [] /\ h = h1 /\ x = LForward k n r) \/ exists h2', h2 = h2' ++ [x] /\ h = h1 ++ LForward k n r :: h2'.
Proof.
  intros E. destruct h2 as [|z h2] using rev_ind.
  - left. apply app_inj_tail in E as (-> & ->). auto.
  - clear IHh2. right. exists h2. change (h1 ++ LForward k n r :: h2 ++ [z]) with (h1 ++ (LForward k n r :: h2) ++ [z]) in E.
    rewrite app_assoc in E. apply app_inj_tail in E as (-> & ->). auto.
Qed.
Lemma count_free_snoc h x : count_free (h ++ [x]) = (count_free h + match x with LFree _ => 1 | _ => 0 end)%nat.
Proof. unfold count_free. rewrite filter_app, app_length. simpl. destruct x; reflexivity. Qed.
(** an entry that is no forward and no free keeps what is known of forwards *)
Lemma r_to_snoc k to h x : (forall h1 n r h2, h = h1 ++ LForward k n r :: h2 -> to = Z.of_nat n - Z.of_nat (count_free h2) /\ forall n' r', ~ In (LForward k n' r') h1) ->
  (forall n r, x <> LForward k n r) ->
  forall h1 n r h2, h ++ [x] = h1 ++ LForward k n r :: h2 ->
    to - (match x with LFree _ => 1 | _ => 0 end) = Z.of_nat n - Z.of_nat (count_free h2) /\ forall n' r', ~ In (LForward k n' r') h1.
Proof.
  intros H Nx h1 n r h2 E. apply snoc_split in E as [(_ & _ & ->)|(h2' & -> & E)]; [destruct (Nx n r eq_refl)|].
  destruct (H h1 n r h2' E) as (A & B). split; [|exact B]. rewrite A, count_free_snoc. destruct x; lia.
Qed.
Lemma in_snoc (h : list entry) x y : In y (h ++ [x]) <-> In y h \/ y = x.
Proof. rewrite in_app_iff. simpl. intuition congruence. Qed.

Lemma set_prop_in x r l y q : In (y, q) (set_prop x r l) -> (y = x /\ q = r) \/ In (y, q) l.
Proof.
  induction l as [|(x', r') l IH]; simpl; [intros [E|[]]; injection E as <- <-; auto|].
  destruct (sender_eqb x x') eqn:Ex; simpl; intros [E|E]; try (injection E as <- <-); auto. destruct (IH E); auto.
Qed.
Lemma set_prop_keys x r l : forall y, In y (map fst (set_prop x r l)) <-> y = x \/ In y (map fst l).
Proof.
  intros y. induction l as [|(x', r') l IH]; simpl; [intuition congruence|].
  destruct (sender_eqb x x') eqn:Ex; simpl; [apply sender_eqb_eq in Ex as ->; intuition congruence|]. rewrite IH. intuition congruence.
Qed.
Lemma set_prop_nodup x r l : NoDup (map fst l) -> NoDup (map fst (set_prop x r l)).
Proof.
  induction l as [|(x', r') l IH]; simpl; intros N; [apply NoDup_cons; [auto|apply NoDup_nil]|]. inversion N as [|? ? N1 N2]; subst.
  destruct (sender_eqb x x') eqn:Ex; simpl; [apply sender_eqb_eq in Ex as ->; apply NoDup_cons; assumption|].
  apply NoDup_cons; [|auto]. intros X. apply set_prop_keys in X as [->|X]; [|auto].
  assert (sender_eqb x x = true) by (apply sender_eqb_eq; reflexivity). congruence.
Qed.

(** the record of [k] and its history *)
Lemma inv_get n0 s k d : inv n0 s -> get k (requests s) = Some d -> exists h, life k (log s) = Some h /\ rec_ok k d h.
Proof. intros I G. pose proof (i_rec n0 s I k) as A. rewrite G in A. destruct (life k (log s)) as [h|]; [exists h; auto|destruct A]. Qed.
Lemma life_cons k l x h : key_of x = Some k -> (match x with LAdd _ | LRemove _ | LDrop _ => False | _ => True end) ->
  life k l = Some h -> life k (l ++ [x]) = Some (h ++ [x]).
Proof. intros K T E. rewrite life_snoc, E. unfold live. rewrite K, Nat.eqb_refl. destruct x; try contradiction; reflexivity. Qed.

Lemma prop_inv n0 r x d s : inv n0 s -> get (r_digest r) (requests s) = Some d ->
  inv n0 (note (LProp (r_digest r) x r)
      (put (r_digest r) (RState (rs_request d) (forwarded d) (forwardedTo d) (set_prop x r (propagates d)) (finalised d) (executed d) (unordered d)) s)).
Proof.
  intros I G. destruct (inv_get n0 s _ d I G) as (h & Lf & R). set (k := r_digest r) in *.
  eapply (inv_set n0 s _ k (LProp k x r)); [exact I|reflexivity|reflexivity|reflexivity|reflexivity| | | |].
  - simpl. split; [congruence|reflexivity].
  - simpl. rewrite G. simpl. destruct (finalised d); lia.
  - exact (life_cons k (log s) (LProp k x r) h eq_refl Logic.I Lf).
  - destruct R as [R1 R2 R3 R4 R5 R6 R7 R8 R9]. constructor; simpl; auto.
    + apply set_prop_nodup, R2.
    + intros y q X. apply set_prop_in in X as [(-> & ->)|X]; [split; [apply in_snoc; auto|reflexivity]|].
      destruct (R3 y q X) as (A & B). split; [apply in_snoc; auto|exact B].
    + intros y q X. apply set_prop_keys. apply in_snoc in X as [X|X]; [right; apply (R4 y q X)|injection X as -> _; auto].
    + intros X. apply set_prop_keys. apply in_snoc in X as [X|X]; [right; auto|discriminate].
    + rewrite R6. split; intros (n & q & X); exists n, q; [apply in_snoc; auto|apply in_snoc in X as [X|X]; [exact X|discriminate]].
    + intros h1 n q h2 E. destruct (r_to_snoc k _ h (LProp k x r) R7 ltac:(discriminate) h1 n q h2 E) as (A & B).
      split; [lia|exact B].
    + rewrite R8. rewrite in_snoc. split; [auto|intros [X|X]; [exact X|discriminate]].
Qed.
Lemma add_propagate_inv n0 r x s : inv n0 s -> inv n0 (add_propagate r x s) /\
  exists d, get (r_digest r) (requests (add_propagate r x s)) = Some d /\ In x (map fst (propagates d)).
Proof.
  intros I. unfold add_propagate. destruct (add_inv n0 r s I) as (I' & G'). set (s1 := add r s) in *. clearbody s1.
  destruct (get (r_digest r) (requests s1)) as [d|] eqn:G; [|congruence]. split; [apply prop_inv; assumption|].
  simpl. rewrite get_set, Nat.eqb_refl. eexists. split; [reflexivity|]. simpl. apply set_prop_keys. auto.
Qed.
Lemma set_same k d l : get k l = Some d -> set k d l = l.
Proof.
  induction l as [|(k0, d0) l IH]; simpl; intros G; [discriminate|].
  destruct (Nat.eqb_spec k k0) as [<-|Ne]; [injection G as ->; reflexivity|]. rewrite IH by exact G. reflexivity.
Qed.
Lemma send_inv n0 k s d h : inv n0 s -> get k (requests s) = Some d -> life k (log s) = Some h -> ~ In (LSend k) h ->
  In self (map fst (propagates d)) -> inv n0 (note (LSend k) s).
Proof.
  intros I G Lf N Sf. destruct (inv_get n0 s k d I G) as (h' & Lf' & R). rewrite Lf in Lf'. injection Lf' as <-.
  apply (inv_set n0 s _ k (LSend k) d (h ++ [LSend k])); auto; simpl.
  - symmetry. apply set_same, G.
  - exists h. auto.
  - rewrite G. simpl. lia.
  - exact (life_cons k (log s) (LSend k) h eq_refl Logic.I Lf).
  - destruct R as [R1 R2 R3 R4 R5 R6 R7 R8 R9]. constructor; auto.
    + intros y q Y. destruct (R3 y q Y) as (A & B). split; [apply in_snoc; auto|exact B].
    + intros y q Y. apply in_snoc in Y as [Y|Y]; [apply (R4 y q Y)|discriminate].
    + rewrite R6. split; intros (n & q & Y); exists n, q; [apply in_snoc; auto|apply in_snoc in Y as [Y|Y]; [exact Y|discriminate]].
    + intros h1 n q h2 Y. destruct (r_to_snoc _ _ _ (LSend k) R7 ltac:(discriminate) h1 n q h2 Y) as (A & B).
      split; [lia|exact B].
    + rewrite R8. rewrite in_snoc. split; [auto|intros [Y|Y]; [exact Y|discriminate]].
Qed.
Lemma propagate_own_inv n0 r s : inv n0 s -> inv n0 (propagate_own r s) /\
  exists d, get (r_digest r) (requests (propagate_own r s)) = Some d /\ In self (map fst (propagates d)).
Proof.
  intros I. unfold propagate_own. destruct (has_propagated r self s) eqn:Hp.
  - split; [exact I|]. unfold has_propagated in Hp. destruct (get (r_digest r) (requests s)) as [d|] eqn:G; [|discriminate].
    exists d. split; [reflexivity|]. apply existsb_exists in Hp as (y & Y1 & Y2). apply sender_eqb_eq in Y2 as <-. apply in_map, Y1.
  - destruct (add_propagate_inv n0 r self s I) as (I' & d' & G' & Xd).
    assert (Lf : exists h, life (r_digest r) (log (add_propagate r self s)) = Some h /\ ~ In (LSend (r_digest r)) h).
    { unfold has_propagated in Hp. unfold add_propagate, add. destruct (get (r_digest r) (requests s)) as [d|] eqn:G.
      - destruct (inv_get n0 s _ d I G) as (h & Lf & R). rewrite G. exists (h ++ [LProp (r_digest r) self r]). split.
        + apply life_cons; [reflexivity|exact Logic.I|exact Lf].
        + rewrite in_snoc. intros [Y|Y]; [|discriminate]. apply (r_send _ _ _ R) in Y. apply in_map_iff in Y as (y & Y1 & Y2).
          assert (existsb (fun p => sender_eqb (fst p) self) (propagates d) = true) by (apply existsb_exists; exists y; split; [exact Y2|apply sender_eqb_eq, Y1]).
          congruence.
      - exists [LProp (r_digest r) self r]. simpl. rewrite get_set, Nat.eqb_refl. simpl. rewrite !life_snoc. unfold live. simpl.
        rewrite !Nat.eqb_refl. split; [reflexivity|]. simpl. intros [Y|[]]; discriminate. }
    destruct Lf as (h & Lf & N). split; [exact (send_inv n0 _ _ d' h I' G' Lf N Xd)|]. exists d'. auto.
Qed.
Lemma filter_length_le {A} (f : A -> bool) l : (length (filter f l) <= length l)%nat.
Proof. induction l as [|a l IH]; simpl; [lia|]. destruct (f a); simpl; lia. Qed.

Lemma set_set k a b l : set k a (set k b l) = set k a l.
Proof.
  induction l as [|(k0, d0) l IH]; simpl; [rewrite Nat.eqb_refl; reflexivity|].
  destruct (Nat.eqb_spec k k0) as [<-|N]; simpl; [rewrite Nat.eqb_refl; reflexivity|]. destruct (Nat.eqb_spec k k0); [congruence|].
  rewrite IH. reflexivity.
Qed.
Definition strs (l : list (sender * request)) := filter (fun p => is_str (fst p)) l.
Lemma acceptable_some qu l : forall seen q, acceptable qu seen l = Some q ->
  exists x l1 l2, In (x, q) l /\ l = l1 ++ l2 /\
    (qu <= length (filter (fun p => r_digest (snd p) =? r_digest q) (seen ++ strs l1)))%nat.
Proof.
  induction l as [|(x, r) l IH]; simpl; intros seen q E; [discriminate|]. destruct (is_str x) eqn:Sx; simpl in E.
  - destruct (is_reached _ _) eqn:Q; [injection E as <-; apply Nat.leb_le in Q|].
    + exists x, [(x, r)], l. split; [auto|split; [reflexivity|]]. unfold strs. simpl. rewrite Sx. exact Q.
    + destruct (IH _ _ E) as (y & l1 & l2 & A & -> & B). exists y, ((x, r) :: l1), l2. split; [auto|split; [reflexivity|]].
      unfold strs in *. simpl. rewrite Sx. rewrite <- app_assoc in B. exact B.
  - destruct (IH _ _ E) as (y & l1 & l2 & A & -> & B). exists y, ((x, r) :: l1), l2. split; [auto|split; [reflexivity|]].
    unfold strs in *. simpl. rewrite Sx. exact B.
Qed.
Lemma filter_all {A} (f : A -> bool) l : (forall x, In x l -> f x = true) -> filter f l = l.
Proof. induction l as [|a l IH]; simpl; intros H; [reflexivity|]. rewrite (H a) by auto. rewrite IH; auto. Qed.
Lemma acceptable_none qu l k : forall seen, (forall x r, In (x, r) l -> r_digest r = k) -> (forall x r, In (x, r) seen -> r_digest r = k) ->
  (length seen < qu)%nat -> acceptable qu seen l = None -> (length (seen ++ strs l) < qu)%nat.
Proof.
  induction l as [|(x, r) l IH]; simpl; intros seen A B L E; [unfold strs; simpl; rewrite app_nil_r; exact L|].
  unfold strs. simpl. destruct (is_str x) eqn:Sx; simpl in E.
  - assert (F : filter (fun p => r_digest (snd p) =? r_digest r)%nat (seen ++ [(x, r)]) = seen ++ [(x, r)]).
    { apply filter_all. intros (y, q) X. simpl. rewrite (A x r) by auto. apply Nat.eqb_eq. apply in_app_or in X as [X|[X|[]]]; [exact (B _ _ X)|].
      injection X as _ <-. apply (A x r). auto. }
    rewrite F in E. destruct (is_reached qu _) eqn:Q; [discriminate|]. apply Nat.leb_gt in Q.
    specialize (IH (seen ++ [(x, r)])). rewrite <- app_assoc in IH. apply IH; auto.
    + intros y q X. apply (A y q). auto.
    + intros y q X. apply in_app_or in X as [X|[X|[]]]; [exact (B _ _ X)|]. injection X as <- <-. apply (A x r). auto.
  - apply (IH seen); auto. intros y q X. apply (A y q). auto.
Qed.

(** after the attempt to forward: with the quorum, the record is forwarded *)
Lemma try_forwarding_inv n0 r s d : inv n0 s -> get (r_digest r) (requests s) = Some d ->
  inv n0 (try_forwarding r s) /\ exists d', get (r_digest r) (requests (try_forwarding r s)) = Some d' /\
    propagates d' = propagates d /\ nodes (try_forwarding r s) = nodes s /\
    ((propagate (Quorums (nodes s)) <= length (strs (propagates d)))%nat -> forwarded d' = true).
Proof.
  intros I G. set (k := r_digest r) in *. destruct (inv_get n0 s k d I G) as (h & Lf & R).
  unfold try_forwarding, can_forward. fold k. rewrite G.
  destruct (forwarded d) eqn:Fw; [split; [exact I|]; exists d; auto|].
  assert (Ln : (length (strs (propagates d)) <= length (propagates d))%nat) by apply filter_length_le.
  destruct (is_reached _ _) eqn:Q; simpl.
  2:{ split; [exact I|]. exists d. apply Nat.leb_gt in Q. split; [exact G|split; [reflexivity|split; [reflexivity|]]]. intros L. exfalso. simpl in *. lia. }
  assert (Qp : (0 < propagate (Quorums (nodes s)))%nat) by (unfold Quorums; simpl; lia).
  destruct (acceptable _ _ _) as [q|] eqn:Ac.
  2:{ split; [exact I|]. exists d. repeat split; auto. intros L. exfalso.
      pose proof (acceptable_none _ _ k [] ltac:(intros x y X; apply (r_prop _ _ _ R x y X)) ltac:(intros x y []) Qp Ac) as Z. simpl in Z. lia. }
  destruct (acceptable_some _ _ _ _ Ac) as (x & l1 & l2 & Ix & El & Lq).
  destruct (r_prop _ _ _ R x q Ix) as (Px & Dq).
  assert (Fn : finalised d = None).
  { destruct (finalised d) eqn:E; [|reflexivity]. assert (finalised d <> None) as E' by congruence. apply (r_fin _ _ _ R) in E'. congruence. }
  unfold set_finalised. rewrite Dq, G, Fn. unfold forward. fold k. simpl. rewrite get_set, Nat.eqb_refl. simpl. rewrite set_set.
  split; [|exists (RState (rs_request d) true (Z.of_nat (replicas s)) (propagates d) (Some q) (executed d) (Z.of_nat (replicas s)));
           simpl; rewrite get_set, Nat.eqb_refl; auto].
  assert (Nf : forall n' r', ~ In (LForward k n' r') h).
  { intros n' r' X. assert (forwarded d = true) by (apply (r_fwd _ _ _ R); eauto). congruence. }
  eapply (inv_set n0 s _ k (LForward k (replicas s) q)); [exact I|reflexivity|reflexivity|reflexivity|simpl; apply set_set| | | |].
  - simpl. exists h. split; [exact Lf|split; [exact Nf|split; [|split; [exact Dq|exists x; exact Px]]]].
    exists (map fst (strs l1)). split; [split|].
    + pose proof (r_nodup _ _ _ R) as Nd. rewrite El, map_app in Nd.
      clear - Nd. set (m := map fst l2) in *. clearbody m. induction l1 as [|(y, z) l1 IH]; simpl in *; [apply NoDup_nil|].
      inversion Nd as [|? ? N1 N2]; subst. unfold strs. simpl. destruct (is_str y); simpl; [|apply IH, N2].
      apply NoDup_cons; [|apply IH, N2]. intros X. apply N1, in_or_app. left. apply in_map_iff in X as (w & <- & W). apply in_map.
      apply filter_In in W. tauto.
    + intros y Y. apply in_map_iff in Y as ((y', z) & <- & W). apply filter_In in W as (W & Sy). split; [exact Sy|]. exists z.
      apply (r_prop _ _ _ R). rewrite El. apply in_or_app. auto.
    + rewrite map_length. simpl in Lq. pose proof (filter_length_le (fun p : sender * request => r_digest (snd p) =? r_digest q)%nat (strs l1)) as Z.
      rewrite (i_pool n0 s I) in Lq. unfold Quorums in Lq. simpl in Lq. lia.
  - simpl. rewrite G. simpl. rewrite Fn. lia.
  - exact (life_cons k (log s) (LForward k (replicas s) q) h eq_refl Logic.I Lf).
  - destruct R as [R1 R2 R3 R4 R5 R6 R7 R8 R9]. constructor; simpl; auto.
    + intros y z Y. destruct (R3 y z Y) as (A & B). split; [apply in_snoc; auto|exact B].
    + intros y z Y. apply in_snoc in Y as [Y|Y]; [apply (R4 y z Y)|discriminate].
    + intros Y. apply in_snoc in Y as [Y|Y]; [auto|discriminate].
    + split; [|auto]. intros _. exists (replicas s), q. apply in_snoc. auto.
    + intros h1 n z h2 E. apply snoc_split in E as [(-> & <- & E)|(h2' & -> & E)].
      * injection E as <- <-. split; [unfold count_free; simpl; lia|exact Nf].
      * exfalso. apply (Nf n z). rewrite E. apply in_or_app. right. left. reflexivity.
    + rewrite R8, in_snoc. split; [auto|intros [Y|Y]; [exact Y|discriminate]].
    + split; [auto|discriminate].
Qed.

(** an entry which is neither a propagate, a forward, a send, a free nor an execution; or one of the last two *)
Lemma exec_inv n0 k s d : inv n0 s -> get k (requests s) = Some d ->
  inv n0 (note (LExec k) (put k (RState (rs_request d) (forwarded d) (forwardedTo d) (propagates d) (finalised d) true (unordered d)) s)).
Proof.
  intros I G. destruct (inv_get n0 s k d I G) as (h & Lf & R).
  eapply (inv_set n0 s _ k (LExec k)); [exact I|reflexivity|reflexivity|reflexivity|reflexivity|exact Logic.I| | |].
  - simpl. rewrite G. simpl. destruct (finalised d); lia.
  - exact (life_cons k (log s) (LExec k) h eq_refl Logic.I Lf).
  - destruct R as [R1 R2 R3 R4 R5 R6 R7 R8 R9]. constructor; simpl; auto.
    + intros y q Y. destruct (R3 y q Y) as (A & B). split; [apply in_snoc; auto|exact B].
    + intros y q Y. apply in_snoc in Y as [Y|Y]; [apply (R4 y q Y)|discriminate].
    + intros Y. apply in_snoc in Y as [Y|Y]; [auto|discriminate].
    + rewrite R6. split; intros (n & q & Y); exists n, q; [apply in_snoc; auto|apply in_snoc in Y as [Y|Y]; [exact Y|discriminate]].
    + intros h1 n q h2 Y. destruct (r_to_snoc _ _ _ (LExec k) R7 ltac:(discriminate) h1 n q h2 Y) as (A & B).
      split; [lia|exact B].
    + split; [intros _; apply in_snoc; auto|reflexivity].
Qed.
Lemma freed_inv n0 k s d : inv n0 s -> get k (requests s) = Some d ->
  inv n0 (note (LFree k) (put k (RState (rs_request d) (forwarded d) (forwardedTo d - 1) (propagates d) (finalised d) (executed d) (unordered d)) s)).
Proof.
  intros I G. destruct (inv_get n0 s k d I G) as (h & Lf & R).
  eapply (inv_set n0 s _ k (LFree k)); [exact I|reflexivity|reflexivity|reflexivity|reflexivity|exact Logic.I| | |].
  - simpl. rewrite G. simpl. destruct (finalised d); lia.
  - exact (life_cons k (log s) (LFree k) h eq_refl Logic.I Lf).
  - destruct R as [R1 R2 R3 R4 R5 R6 R7 R8 R9]. constructor; simpl; auto.
    + intros y q Y. destruct (R3 y q Y) as (A & B). split; [apply in_snoc; auto|exact B].
    + intros y q Y. apply in_snoc in Y as [Y|Y]; [apply (R4 y q Y)|discriminate].
    + intros Y. apply in_snoc in Y as [Y|Y]; [auto|discriminate].
    + rewrite R6. split; intros (n & q & Y); exists n, q; [apply in_snoc; auto|apply in_snoc in Y as [Y|Y]; [exact Y|discriminate]].
    + intros h1 n q h2 Y. exact (r_to_snoc _ _ _ (LFree k) R7 ltac:(discriminate) h1 n q h2 Y).
    + rewrite R8. rewrite in_snoc. split; [auto|intros [Y|Y]; [exact Y|discriminate]].
Qed.
Lemma clean_inv n0 k s d : inv n0 s -> get k (requests s) = Some d -> inv n0 (clean k d s).
Proof.
  intros I G. unfold clean. destruct (executed d && _) eqn:C; [|exact I]. apply andb_true_iff in C as (C1 & C2). apply Z.leb_le in C2.
  destruct (inv_get n0 s k d I G) as (h & Lf & R).
  eapply (inv_del n0 s _ k (LRemove k)); [exact I|reflexivity|reflexivity|reflexivity|reflexivity| | |].
  - simpl. exists h. split; [exact Lf|split; [apply (r_exec _ _ _ R), C1|]]. intros h1 n r h2 E. destruct (r_to _ _ _ R h1 n r h2 E). lia.
  - simpl. rewrite G. simpl. destruct (finalised d); lia.
  - rewrite life_snoc. unfold live. simpl. rewrite Nat.eqb_refl. reflexivity.
Qed.
Lemma mark_as_executed_inv n0 k s : inv n0 s -> inv n0 (mark_as_executed k s).
Proof.
  intros I. unfold mark_as_executed. destruct (get k (requests s)) as [d|] eqn:G; [|exact I].
  apply clean_inv; [apply exec_inv; assumption|]. simpl. rewrite get_set, Nat.eqb_refl. reflexivity.
Qed.
Lemma free_inv n0 k s : inv n0 s -> inv n0 (free k s).
Proof.
  intros I. unfold free. destruct (get k (requests s)) as [d|] eqn:G; [|exact I].
  apply clean_inv; [apply freed_inv; assumption|]. simpl. rewrite get_set, Nat.eqb_refl. reflexivity.
Qed.
Lemma ordered_inv n0 k s : inv n0 s -> inv n0 (ordered_by_replica k s).
Proof.
  intros I. unfold ordered_by_replica. destruct (get k (requests s)) as [d|] eqn:G; [|exact I].
  destruct (inv_get n0 s k d I G) as (h & Lf & R). destruct I as [A B C D E]. constructor; simpl; auto.
  - intros k'. rewrite get_set. destruct (Nat.eqb_spec k' k) as [->|N]; [|apply A]. rewrite Lf.
    destruct R. constructor; assumption.
  - apply set_keys, B.
  - rewrite C, nfin_set, G. simpl. lia.
Qed.
Lemma drop_inv n0 k s : inv n0 s ->
  inv n0 (note (LDrop k) (State (del k (requests s)) (fin_count s - fin_z (get k (requests s))) (processing s) (nodes s) (replicas s) (log s))).
Proof.
  intros I. eapply (inv_del n0 s _ k (LDrop k)); [exact I|reflexivity|reflexivity|reflexivity|reflexivity|exact Logic.I|reflexivity|].
  rewrite life_snoc. unfold live. simpl. rewrite Nat.eqb_refl. reflexivity.
Qed.
Lemma force_free_inv n0 k s : inv n0 s -> inv n0 (force_free k s).
Proof.
  intros I. unfold force_free. destruct (get k (requests s)) as [d|] eqn:G; [|exact I]. pose proof (drop_inv n0 k s I) as D.
  rewrite G in D. simpl in D. destruct (finalised d); [exact D|]. rewrite Z.sub_0_r in D. exact D.
Qed.
Lemma done_inv n0 k s : inv n0 s -> inv n0 (done_processing k s).
Proof. intros I. apply (inv_quiet n0 s); auto. Qed.
Lemma clear_inv n0 k s : inv n0 s -> inv n0 (clear_for_txn k s).
Proof.
  intros I. unfold clear_for_txn. destruct (get k (requests s)) as [d|] eqn:G; [|exact I].
  destruct (inv_get n0 s k d I G) as (h & Lf & R). destruct (forwarded d) eqn:F; simpl.
  - destruct (executed d); simpl; [exact I|]. apply done_inv, free_inv, ordered_inv, mark_as_executed_inv, I.
  - apply done_inv. pose proof (drop_inv n0 k s I) as D. rewrite G in D. simpl in D.
    destruct (finalised d) eqn:E; [|rewrite Z.sub_0_r in D; exact D].
    assert (forwarded d = true) by (apply (r_fin _ _ _ R); congruence). congruence.
Qed.
Lemma rest_inv n0 r s : inv n0 s -> inv n0 (try_forwarding r (propagate_own r s)).
Proof. intros I. destruct (propagate_own_inv n0 r s I) as (I1 & d & G & _). apply (try_forwarding_inv n0 r _ d I1 G). Qed.
Lemma step_inv n0 s o : inv n0 s -> inv n0 (step s o).
Proof.
  intros I. destruct o as [r a b|r x a b|k|k|k|k|k t|k|n rp]; simpl.
  - unfold process_request. destruct a; [exact I|].
    destruct (is_processing _ s); [apply rest_inv, add_inv, I|].
    destruct b; simpl; [apply rest_inv, add_inv|]; [|apply done_inv]; apply (inv_quiet n0 s); auto.
  - unfold process_propagate. destruct (is_processing _ s); [apply rest_inv, add_propagate_inv, I|].
    destruct a; [exact I|]. destruct b; simpl; [apply rest_inv, add_propagate_inv|apply done_inv]; apply (inv_quiet n0 s); auto.
  - apply mark_as_executed_inv, I.
  - apply free_inv, I.
  - apply ordered_inv, I.
  - apply done_inv, I.
  - unfold check_outdated. destruct (get k (requests s)) as [d|]; [|exact I]. destruct (_ && _); [exact I|].
    destruct t; [apply force_free_inv, done_inv, I|exact I].
  - apply clear_inv, I.
  - destruct I as [A B C D E]. constructor; simpl; auto.
    + intros k. rewrite life_snoc. unfold live. simpl. apply A.
    + rewrite pool_snoc. reflexivity.
    + apply log_ok_snoc; [exact E|exact Logic.I].
Qed.
Lemma run_inv nodes replicas ops : inv nodes (run nodes replicas ops).
Proof.
  unfold run. assert (I : inv nodes (init nodes replicas)).
  { constructor; simpl; auto; [apply NoDup_nil|]. intros l1 x l2 E. destruct l1; discriminate. }
  revert I. generalize (init nodes replicas). induction ops as [|o ops IH]; intros s I; simpl; [exact I|]. apply IH, step_inv, I.
Qed.

(** ** C25 *)
(** Every forward happens at most once per record, with propagates of f+1 distinct nodes under that
    digest, and hands over one of the propagated requests; a record is removed only when the request
    was executed and every replica it was forwarded to freed it (or by force, [LDrop]). *)
Theorem C25_log : forall nodes replicas ops, log_ok nodes (log (run nodes replicas ops)).
Proof. intros. apply (i_log nodes), run_inv. Qed.

(** Between two forwards of the same digest the record was removed or dropped. *)
Lemma stays n0 k n r l1 l2 : log_ok n0 (l1 ++ LForward k n r :: l2) -> ~ In (LRemove k) l2 -> ~ In (LDrop k) l2 ->
  exists h, life k (l1 ++ LForward k n r :: l2) = Some h /\ In (LForward k n r) h.
Proof.
  induction l2 as [|x l2 IH] using rev_ind; intros H A B.
  - destruct (H l1 _ [] eq_refl) as (h & Lf & _). exists (h ++ [LForward k n r]). split; [|apply in_snoc; auto].
    exact (life_cons k l1 (LForward k n r) h eq_refl Logic.I Lf).
  - change (l1 ++ LForward k n r :: l2 ++ [x]) with (l1 ++ (LForward k n r :: l2) ++ [x]) in *. rewrite app_assoc in *.
    destruct IH as (h & Lf & Ih).
    + intros u y v E. apply (H u y (v ++ [x])). rewrite E, <- app_assoc. reflexivity.
    + intros X. apply A, in_or_app. auto.
    + intros X. apply B, in_or_app. auto.
    + pose proof (H _ x [] eq_refl) as O. rewrite life_snoc, Lf. unfold live. destruct (key_of x) as [k'|] eqn:Ek; [|eauto].
      destruct (Nat.eqb_spec k' k) as [->|Ne]; [|eauto].
      destruct x; simpl in Ek; try discriminate; injection Ek as ->; try (eexists; split; [reflexivity|apply in_snoc; auto]); exfalso.
      * simpl in O. congruence.
      * apply A, in_or_app. right. left. reflexivity.
      * apply B, in_or_app. right. left. reflexivity.
Qed.
Lemma removed_dec k l : (In (LRemove k) l \/ In (LDrop k) l) \/ ~ (In (LRemove k) l \/ In (LDrop k) l).
Proof.
  induction l as [|x l IH]; simpl; [tauto|]. destruct IH as [IH|IH]; [tauto|].
  destruct x as [| | | | | |j|j|]; try (right; intros [[X|X]|[X|X]]; try discriminate; tauto).
  - destruct (Nat.eq_dec j k) as [->|Ne]; [auto|]. right. intros [[X|X]|[X|X]]; try congruence; tauto.
  - destruct (Nat.eq_dec j k) as [->|Ne]; [auto|]. right. intros [[X|X]|[X|X]]; try congruence; tauto.
Qed.
Theorem C25_once : forall nodes replicas ops k l1 n r l2 n' r' l3,
  log (run nodes replicas ops) = l1 ++ LForward k n r :: l2 ++ LForward k n' r' :: l3 ->
  In (LRemove k) l2 \/ In (LDrop k) l2.
Proof.
  intros nodes replicas ops k l1 n r l2 n' r' l3 E.
  destruct (removed_dec k l2) as [D|D]; [exact D|]. exfalso. assert (A : ~ In (LRemove k) l2) by tauto. assert (B : ~ In (LDrop k) l2) by tauto. clear D. pose proof (C25_log nodes replicas ops) as H. rewrite E in H.
  destruct (stays nodes k n r l1 l2) as (h & Lf & Ih); [|exact A|exact B|].
  - intros u y v Eu. apply (H u y (v ++ LForward k n' r' :: l3)).
    change (l1 ++ LForward k n r :: l2 ++ LForward k n' r' :: l3) with (l1 ++ (LForward k n r :: l2) ++ LForward k n' r' :: l3).
    rewrite app_assoc, Eu, <- app_assoc. reflexivity.
  - destruct (H (l1 ++ LForward k n r :: l2) (LForward k n' r') l3) as (h' & Lf' & Nf & _); [rewrite <- app_assoc; reflexivity|].
    rewrite Lf in Lf'. injection Lf' as <-. exact (Nf n r Ih).
Qed.

(** A recorded propagate of another node was received from it; this node's own echo comes with a
    request it received from a client or with a propagate. *)
Definition requested (r : request) (ops : list op) : Prop := exists a b, In (ORequest r a b) ops.
Definition received (x : sender) (r : request) (ops : list op) : Prop := exists a b, In (OPropagate r x a b) ops.
Definition new_props (r : request) (xs : list sender) (s s' : state) : Prop :=
  exists l, log s' = log s ++ l /\ forall k x q, In (LProp k x q) l -> k = r_digest r /\ q = r /\ In x xs.
Lemma np_refl r xs s : new_props r xs s s.
Proof. exists []. split; [symmetry; apply app_nil_r|intros k x q []]. Qed.
Lemma np_trans r xs a b c : new_props r xs a b -> new_props r xs b c -> new_props r xs a c.
Proof.
  intros (l & E & H) (l' & E' & H'). exists (l ++ l'). split; [rewrite E', E, app_assoc; reflexivity|].
  intros k x q X. apply in_app_or in X as [X|X]; eauto.
Qed.
Lemma np_one r xs s s' x : log s' = log s ++ [x] -> (forall k y q, x = LProp k y q -> k = r_digest r /\ q = r /\ In y xs) -> new_props r xs s s'.
Proof. intros E H. exists [x]. split; [exact E|]. intros k y q [X|[]]. apply H, X. Qed.
Lemma np_log r xs s s' : log s' = log s -> new_props r xs s s'.
Proof. intros E. exists []. split; [rewrite E; symmetry; apply app_nil_r|intros k x q []]. Qed.
Lemma np_add r xs s : new_props r xs s (add r s).
Proof. unfold add. destruct (get _ _); [apply np_refl|]. eapply np_one; [reflexivity|]. discriminate. Qed.
Lemma np_add_propagate r x xs s : In x xs -> new_props r xs s (add_propagate r x s).
Proof.
  intros Hx. unfold add_propagate. pose proof (np_add r xs s) as N. destruct (get _ _); [|exact N]. eapply np_trans; [exact N|].
  eapply np_one; [reflexivity|]. intros k y q X. injection X as <- <- <-. auto.
Qed.
Lemma np_own r xs s : In self xs -> new_props r xs s (propagate_own r s).
Proof.
  intros H. unfold propagate_own. destruct (has_propagated _ _ _); [apply np_refl|]. eapply np_trans; [apply np_add_propagate, H|].
  eapply np_one; [reflexivity|]. discriminate.
Qed.
Lemma np_try r xs s : new_props r xs s (try_forwarding r s).
Proof.
  unfold try_forwarding. destruct (can_forward r s) as [q|]; [|apply np_refl].
  assert (L : log (set_finalised q s) = log s) by (unfold set_finalised; destruct (get _ _); reflexivity).
  apply (np_trans _ _ _ (set_finalised q s)); [apply np_log, L|]. unfold forward. destruct (get _ _); [|apply np_refl].
  eapply np_one; [reflexivity|]. discriminate.
Qed.
Lemma np_clean r xs k d s : new_props r xs s (clean k d s).
Proof. unfold clean. destruct (_ && _); [|apply np_refl]. eapply np_one; [reflexivity|discriminate]. Qed.
Lemma np_exec r xs k s : new_props r xs s (mark_as_executed k s).
Proof.
  unfold mark_as_executed. destruct (get _ _); [|apply np_refl]. eapply np_trans; [|apply np_clean]. eapply np_one; [reflexivity|discriminate].
Qed.
Lemma np_free r xs k s : new_props r xs s (free k s).
Proof. unfold free. destruct (get _ _); [|apply np_refl]. eapply np_trans; [|apply np_clean]. eapply np_one; [reflexivity|discriminate]. Qed.
Lemma np_step s o : exists r xs, new_props r xs s (step s o) /\
  match o with ORequest q _ _ => r = q /\ xs = [self] | OPropagate q x _ _ => r = q /\ xs = [x; self] | _ => xs = [] end.
Proof.
  destruct o as [r a b|r x a b|k|k|k|k|k t|k|n rp]; simpl.
  - exists r, [self]. split; [|auto]. unfold process_request. destruct a; [apply np_refl|].
    assert (H : forall s, new_props r [self] s (record_and_propagate r s)).
    { intros s0. unfold record_and_propagate. eapply np_trans; [apply np_add|]. eapply np_trans; [apply np_own; simpl; auto|apply np_try]. }
    destruct (is_processing _ _); [apply H|]. destruct b; simpl; [|apply np_log; reflexivity].
    eapply np_trans; [|apply H]. apply np_log. reflexivity.
  - exists r, [x; self]. split; [|auto]. unfold process_propagate.
    assert (H : forall s, new_props r [x; self] s (try_forwarding r (propagate_own r (add_propagate r x s)))).
    { intros s0. eapply np_trans; [apply (np_add_propagate r x); simpl; auto|]. eapply np_trans; [apply np_own; simpl; auto|apply np_try]. }
    destruct (is_processing _ _); [apply H|]. destruct a; [apply np_refl|]. destruct b; simpl; [|apply np_log; reflexivity].
    eapply np_trans; [|apply H]. apply np_log. reflexivity.
  - exists (Request k 0), []. split; [apply np_exec|reflexivity].
  - exists (Request k 0), []. split; [apply np_free|reflexivity].
  - exists (Request k 0), []. split; [|reflexivity]. apply np_log. unfold ordered_by_replica. destruct (get _ _); reflexivity.
  - exists (Request k 0), []. split; [|reflexivity]. apply np_log. reflexivity.
  - exists (Request k 0), []. split; [|reflexivity]. unfold check_outdated. destruct (get _ _); [|apply np_refl]. destruct (_ && _); [apply np_refl|].
    destruct t; [|apply np_refl]. unfold force_free. destruct (get _ _); [|apply np_log; reflexivity]. eapply np_one; [reflexivity|discriminate].
  - exists (Request k 0), []. split; [|reflexivity]. unfold clear_for_txn. destruct (get _ _) as [d|]; [|apply np_refl].
    set (s1 := if _ : bool then _ else s). assert (N1 : new_props (Request k 0) [] s s1).
    { unfold s1. destruct (_ && _); [|apply np_refl]. apply (np_trans _ _ _ (mark_as_executed k s)); [apply np_exec|]. generalize (mark_as_executed k s). intros s2.
      apply (np_trans _ _ _ (ordered_by_replica k s2)); [apply np_log; unfold ordered_by_replica; destruct (get _ _); reflexivity|].
      eapply np_trans; [apply np_free|]. apply np_log. reflexivity. }
    clearbody s1. destruct (negb _); [|exact N1]. eapply np_trans; [exact N1|]. eapply np_one; [reflexivity|discriminate].
  - exists (Request 0 0), []. split; [|reflexivity]. eapply np_one; [reflexivity|discriminate].
Qed.
Theorem C25_received : forall nodes replicas ops k x r, In (LProp k x r) (log (run nodes replicas ops)) ->
  k = r_digest r /\ (received x r ops \/ (x = self /\ (requested r ops \/ exists y, received y r ops))).
Proof.
  intros nodes replicas ops k x r. unfold run. induction ops as [|o ops IH] using rev_ind; simpl; [intros []|].
  rewrite fold_left_app. simpl. set (s := fold_left step ops _) in *. clearbody s.
  destruct (np_step s o) as (r0 & xs & (l & E & H) & Ho). rewrite E. intros X. apply in_app_or in X as [X|X].
  - destruct (IH X) as (A & [(a & b & B)|(Sx & [(a & b & B)|(y & a & b & B)])]); (split; [exact A|]);
      [left|right; split; [exact Sx|left]|right; split; [exact Sx|right; exists y]]; exists a, b; apply in_or_app; auto.
  - destruct (H k x r X) as (-> & -> & Ix). split; [reflexivity|]. destruct o as [q a b|q y a b|?|?|?|?|? ?|?|? ?]; try (subst xs; destruct Ix).
    + destruct Ho as (<- & ->). destruct Ix as [<-|[]]. right. split; [reflexivity|]. left. exists a, b. apply in_or_app. simpl. auto.
    + destruct Ho as (<- & ->). destruct Ix as [<-|[<-|[]]].
      * left. exists a, b. apply in_or_app. simpl. auto.
      * right. split; [reflexivity|]. right. exists y, a, b. apply in_or_app. simpl. auto.
Qed.

Lemma life_in k l : forall h x, life k l = Some h -> In x h -> In x l.
Proof.
  induction l as [|a l IH] using rev_ind; intros h x Lf X; [discriminate|].
  rewrite life_snoc in Lf. apply in_or_app. unfold live in Lf. destruct (key_of a) as [k'|]; [|left; apply (IH h); assumption].
  destruct (k' =? k)%nat; [|left; apply (IH h); assumption].
  destruct (life k l) as [h0|]; destruct a; try discriminate; injection Lf as <-; try destruct X;
    (apply in_app_or in X as [X|[X|[]]]; [left; apply (IH h0); [reflexivity|exact X]|right; left; exact X]).
Qed.
(** So a forward needs at least f other nodes which sent a propagate of that digest. *)
Theorem C25_forward_quorum : forall nodes replicas ops l1 k n r l2,
  log (run nodes replicas ops) = l1 ++ LForward k n r :: l2 ->
  (exists others, NoDup others /\ (getMaxFailures (pool nodes l1) <= length others)%nat /\
     forall x, In x others -> x <> self /\ exists q, r_digest q = k /\ received x q ops) /\
  r_digest r = k /\ (requested r ops \/ exists y, received y r ops).
Proof.
  intros nodes replicas ops l1 k n r l2 E. destruct (C25_log nodes replicas ops l1 _ l2 E) as (h & Lf & _ & (ss & (Nd & P) & Q) & Dr & (y & Py)).
  assert (Hh : forall x, In x h -> In x (log (run nodes replicas ops))).
  { intros x X. rewrite E. apply in_or_app. left. exact (life_in k l1 h x Lf X). }
  split; [|split; [exact Dr|]].
  - exists (filter (fun x => negb (sender_eqb x self)) ss). split; [apply NoDup_filter, Nd|split].
    + assert (L : (length ss <= S (length (filter (fun x => negb (sender_eqb x self)) ss)))%nat).
      { clear - Nd. induction ss as [|a ss IH]; simpl; [lia|]. inversion Nd as [|? ? N1 N2]; subst. specialize (IH N2).
        destruct (sender_eqb a self) eqn:Ea; simpl; [|lia]. apply sender_eqb_eq in Ea as ->.
        rewrite filter_all; [lia|]. intros x X. destruct (sender_eqb x self) eqn:Ex; [|reflexivity]. apply sender_eqb_eq in Ex as ->. contradiction. }
      lia.
    + intros x X. apply filter_In in X as (X & Nx). assert (Ns : x <> self).
      { intros ->. assert (sender_eqb self self = true) by (apply sender_eqb_eq; reflexivity). destruct (sender_eqb self self); discriminate. }
      split; [exact Ns|]. destruct (P x X) as (_ & q & Pq). exists q. apply Hh in Pq. apply C25_received in Pq as (-> & [Rq|(Sx & _)]); [auto|contradiction].
  - apply Hh in Py. apply C25_received in Py as (_ & [Rq|(_ & [Rq|Rq])]); [right; exists y; exact Rq|left; exact Rq|right; exact Rq].
Qed.

(** A propagate that is not ignored is recorded under its sender, this node's own one too, and if by then f+1 named nodes have
    propagated the digest the request is forwarded. *)
Theorem C25_forwarded_when_quorum : forall nodes0 replicas ops r x a b,
  let s := run nodes0 replicas ops in let s' := step s (OPropagate r x a b) in
  (is_processing (r_digest r) s = true \/ (a = false /\ b = true)) ->
  exists h, life (r_digest r) (log s') = Some h /\
    (exists q, In (LProp (r_digest r) x q) h) /\ (exists q, In (LProp (r_digest r) self q) h) /\
    (forall senders, propagators (r_digest r) h senders -> (getMaxFailures (pool nodes0 (log s')) + 1 <= length senders)%nat ->
       exists n q, In (LForward (r_digest r) n q) h).
Proof.
  intros nodes0 replicas ops r x a b s s' C. assert (I : inv nodes0 s) by apply run_inv. clearbody s.
  assert (H : exists s0, inv nodes0 s0 /\ s' = try_forwarding r (propagate_own r (add_propagate r x s0))).
  { unfold s', step, process_propagate. destruct (is_processing _ s) eqn:Pr; [exists s; auto|]. destruct C as [C|(-> & ->)]; [discriminate|].
    simpl. eexists. split; [|reflexivity]. apply (inv_quiet nodes0 s); auto. }
  clearbody s'. destruct H as (s0 & I0 & ->). destruct (add_propagate_inv nodes0 r x s0 I0) as (I1 & d1 & G1 & X1).
  set (s1 := add_propagate r x s0) in *. clearbody s1. destruct (propagate_own_inv nodes0 r s1 I1) as (I2 & d2 & G2 & X2).
  assert (X3 : In x (map fst (propagates d2))).
  { revert G2. unfold propagate_own. destruct (has_propagated r self s1); [rewrite G1; intros E; injection E as <-; exact X1|].
    unfold add_propagate, add. rewrite G1, G1. simpl. rewrite get_set, Nat.eqb_refl. intros E. injection E as <-. simpl.
    apply set_prop_keys. auto. }
  set (s2 := propagate_own r s1) in *. clearbody s2. destruct (try_forwarding_inv nodes0 r s2 d2 I2 G2) as (I3 & d3 & G3 & P3 & N3 & F3).
  set (s3 := try_forwarding r s2) in *. clearbody s3. destruct (inv_get nodes0 s3 _ d3 I3 G3) as (h & Lf & R).
  exists h. split; [exact Lf|].
  assert (K : forall y, In y (map fst (propagates d2)) -> exists q, In (LProp (r_digest r) y q) h).
  { intros y Y. rewrite <- P3 in Y. apply in_map_iff in Y as ((y', q) & <- & Y). exists q. apply (r_prop _ _ _ R _ _ Y). }
  split; [apply K, X3|split; [apply K, X2|]]. intros ss (Nd & P) Q. apply (r_fwd _ _ _ R), F3.
  rewrite <- (i_pool nodes0 s3 I3), N3 in Q. unfold Quorums; simpl. etransitivity; [exact Q|].
  rewrite <- (map_length fst (strs _)). apply NoDup_incl_length; [exact Nd|]. intros y Y. destruct (P y Y) as (Sy & q & Pq).
  apply (r_all _ _ _ R) in Pq. rewrite P3 in Pq. apply in_map_iff in Pq as (p & <- & Ip). apply in_map. apply filter_In. auto.
Qed.

(** The number of finalised requests which the node reports is the number of records which were
    forwarded and not removed. *)
Definition forwarded_now (l : list entry) (k : nat) : Prop := exists h n r, life k l = Some h /\ In (LForward k n r) h.
Theorem C25_finalised_count : forall nodes replicas ops, exists ks, NoDup ks /\
  (forall k, In k ks <-> forwarded_now (log (run nodes replicas ops)) k) /\
  fin_count (run nodes replicas ops) = Z.of_nat (length ks).
Proof.
  intros nodes replicas ops. pose proof (run_inv nodes replicas ops) as I. set (s := run nodes replicas ops) in *. clearbody s.
  exists (map fst (filter (fun x => match finalised (snd x) with Some _ => true | None => false end) (requests s))). split; [|split].
  - pose proof (i_keys nodes s I) as N. clear - N. induction (requests s) as [|(k, d) l IH]; simpl in *; [apply NoDup_nil|].
    inversion N as [|? ? N1 N2]; subst. destruct (finalised d); simpl; [|auto]. apply NoDup_cons; [|auto].
    intros X. apply N1. apply in_map_iff in X as (y & <- & Y). apply in_map. apply filter_In in Y. tauto.
  - intros k. split.
    + intros X. apply in_map_iff in X as ((k', d) & <- & Y). apply filter_In in Y as (Y & F). simpl in *.
      assert (G : get k' (requests s) = Some d).
      { pose proof (i_keys nodes s I) as N. clear - N Y. induction (requests s) as [|(k0, d0) l IH]; simpl in *; [destruct Y|].
        inversion N as [|? ? N1 N2]; subst. destruct Y as [Y|Y]; [injection Y as -> ->; rewrite Nat.eqb_refl; reflexivity|].
        destruct (Nat.eqb_spec k' k0) as [->|Ne]; [|auto]. exfalso. apply N1. apply (in_map fst) in Y. exact Y. }
      destruct (inv_get nodes s k' d I G) as (h & Lf & R). assert (Fw : forwarded d = true) by (apply (r_fin _ _ _ R); destruct (finalised d); congruence).
      apply (r_fwd _ _ _ R) in Fw as (n & r & Fw). exists h, n, r. auto.
    + intros (h & n & r & Lf & X). pose proof (i_rec nodes s I k) as A. rewrite Lf in A. destruct (get k (requests s)) as [d|] eqn:G; [|destruct A].
      assert (Fw : forwarded d = true) by (apply (r_fwd _ _ _ A); eauto). apply (r_fin _ _ _ A) in Fw.
      apply in_map_iff. exists (k, d). split; [reflexivity|]. apply filter_In. split; [apply get_in, G|]. simpl. destruct (finalised d); congruence.
  - rewrite (i_fin nodes s I), map_length. reflexivity.
Qed.

(** A propagate of an ordered request that this node is not processing changes nothing. *)
Theorem C25_ordered_ignored : forall s r x b, is_processing (r_digest r) s = false -> step s (OPropagate r x true b) = s.
Proof. intros s r x b H. simpl. unfold process_propagate. rewrite H. reflexivity. Qed.

(** four nodes: two of them propagate, the request is forwarded to two replicas, executed, freed twice *)
Example C25_ex : let r := Request 7 1 in let r' := Request 7 2 in
  log (run 4 2 [OPropagate r (Bytes 5) false true; OPropagate r' (Str 2) false true; OPropagate r (Str 3) false true;
                OFree 7; OExecuted 7; OFree 7; OPropagate r (Str 3) true true]) =
  [LAdd 7; LProp 7 (Bytes 5) r; LProp 7 self r; LSend 7; LProp 7 (Str 2) r'; LForward 7 2 r'; LProp 7 (Str 3) r; LFree 7; LExec 7; LFree 7; LRemove 7;
   LAdd 7; LProp 7 (Str 3) r; LProp 7 self r; LSend 7; LForward 7 2 r]%nat.
Proof. vm_compute. reflexivity. Qed.

Print Assumptions C25_log.
Print Assumptions C25_once.
Print Assumptions C25_received.
Print Assumptions C25_forward_quorum.
Print Assumptions C25_forwarded_when_quorum.
Print Assumptions C25_finalised_count.
Print Assumptions C25_ordered_ignored.
