(** Property C35: the optimistic key-value store. *)
From Coq Require Import List Arith Bool Lia.
From Verif Require Import Base OptKV_Model.
Import ListNotations.
Local Open Scope res_scope.

Section Spec.
  Context {K V I : Type}.
  (** The specification: a committed map, batches of writes (oldest first) and the writes of
      the batch being built; all writes in the order they were made. *)
  Record spec := mkSpec { s_committed : K -> option V; s_batches : list (I * list (K * V)); s_current : list (K * V) }.

  Context (eqd : forall x y : K, {x = y} + {x <> y}).
  Definition upd (m : K -> option V) (p : K * V) : K -> option V :=
    fun k => if eqd (fst p) k then Some (snd p) else m k.
  Definition upds (m : K -> option V) (ps : list (K * V)) : K -> option V := fold_left upd ps m.
  (** What an uncommitted read sees. *)
  Definition newest (s : spec) : K -> option V :=
    upds (s_committed s) (concat (map snd (s_batches s)) ++ s_current s).

  Inductive kvop :=
  | OSet (k : K) (v : V) (committed : bool)
  | OSetBatch (ps : list (K * V)) (committed : bool)
  | ORemoveCommitted (k : K)
  | OCreate (i : I)
  | OReject
  | OCommit.

  Inductive sstep : spec -> kvop -> spec -> Prop :=
  | S_set c bs w k v : sstep (mkSpec c bs w) (OSet k v false) (mkSpec c bs (w ++ [(k, v)]))
  | S_setc c c' bs w k v : (forall x, c' x = upd c (k, v) x) ->
      sstep (mkSpec c bs w) (OSet k v true) (mkSpec c' bs w)
  | S_setb c bs w ps : sstep (mkSpec c bs w) (OSetBatch ps false) (mkSpec c bs (w ++ ps))
  | S_setbc c c' bs w ps : (forall x, c' x = upds c ps x) ->
      sstep (mkSpec c bs w) (OSetBatch ps true) (mkSpec c' bs w)
  | S_remc c c' bs w k : (forall x, c' x = if eqd k x then None else c x) ->
      sstep (mkSpec c bs w) (ORemoveCommitted k) (mkSpec c' bs w)
  | S_create c bs w i : sstep (mkSpec c bs w) (OCreate i) (mkSpec c (bs ++ [(i, w)]) [])
  | S_reject c bs b w : sstep (mkSpec c (bs ++ [b]) w) OReject (mkSpec c bs [])
  | S_commit c c' i b bs w : (forall x, c' x = upds c b x) ->
      sstep (mkSpec c ((i, b) :: bs) w) OCommit (mkSpec c' bs w).
  Inductive ssteps : spec -> list kvop -> spec -> Prop :=
  | Ss_nil s : ssteps s [] s
  | Ss_cons s o s1 os s2 : sstep s o s1 -> ssteps s1 os s2 -> ssteps s (o :: os) s2.
End Spec.
Arguments spec : clear implicits.
Arguments kvop : clear implicits.

Section Props.
  Context {K V I : Type} (eqd : forall x y : K, {x = y} + {x <> y}).
  Notation okv := (okv K V I).

  Definition do (s : okv) (o : kvop K V I) : res okv :=
    match o with
    | OSet k v c => Ok (set eqd s k v c)
    | OSetBatch ps c => Ok (setBatch eqd s ps c)
    | ORemoveCommitted k => Ok (remove eqd s k true)
    | OCreate i => Ok (create_batch_from_current eqd s i)
    | OReject => reject_batch s
    | OCommit => '(_, s') <- commit_batch eqd s ;; Ok s'
    end.
  Fixpoint run (s : okv) (os : list (kvop K V I)) : res okv :=
    match os with [] => Ok s | o :: os' => s' <- do s o ;; run s' os' end.

  Lemma dget_dput (m : dict K V) k v x : dget eqd (dput eqd m k v) x = upd eqd (dget eqd m) (k, v) x.
  Proof.
    unfold upd. cbn [fst snd]. induction m as [|[a b] m IH]; simpl.
    - destruct (eqd k x); auto.
    - destruct (eqd a k) as [->|N]; simpl.
      + destruct (eqd k x); auto.
      + destruct (eqd a x) as [->|N']; auto. destruct (eqd k x) as [->|]; congruence.
  Qed.
  Lemma upd_ext m m' p x : (forall k, m k = m' k) -> @upd K V eqd m p x = upd eqd m' p x.
  Proof. intros E. unfold upd. destruct (eqd (fst p) x); auto. Qed.
  Lemma upds_ext ps : forall m m' x, (forall k, m k = m' k) -> @upds K V eqd m ps x = upds eqd m' ps x.
  Proof.
    induction ps as [|p ps IH]; intros m m' x E; simpl; auto. apply IH. intros k. apply upd_ext. auto.
  Qed.
  Lemma dget_setBatch (ps : list (K * V)) : forall m x, dget eqd (setBatch_store eqd m ps) x = upds eqd (dget eqd m) ps x.
  Proof.
    induction ps as [|p ps IH]; intros m x; [reflexivity|]. cbn [setBatch_store fold_left].
    change (fold_left _ ps ?m) with (setBatch_store eqd m ps). rewrite IH. cbn [upds fold_left].
    apply upds_ext. intros k. rewrite dget_dput. destruct p; reflexivity.
  Qed.
  Lemma dget_ddel m k x : @dget K V eqd (ddel eqd m k) x = if eqd k x then None else dget eqd m x.
  Proof.
    induction m as [|[a b] m IH]; simpl; [destruct (eqd k x); auto|].
    destruct (eqd a k) as [->|N]; simpl.
    - rewrite IH. destruct (eqd k x); auto.
    - rewrite IH. destruct (eqd a x) as [->|]; auto. destruct (eqd k x) as [->|]; congruence.
  Qed.

  (** [upds m ps x] is the last write of [ps] to [x], or [m x]. *)
  Lemma upds_find ps : forall m x,
    @upds K V eqd m ps x = match find_current eqd (rev ps) x with Some v => Some v | None => m x end.
  Proof.
    induction ps as [|[k v] ps IH] using rev_ind; intros m x; [reflexivity|].
    unfold upds. rewrite fold_left_app, rev_app_distr. cbn [fold_left rev app find_current].
    unfold upd at 1. cbn [fst snd]. destruct (eqd k x); auto. apply IH.
  Qed.
  Lemma upds_app m a b x : @upds K V eqd m (a ++ b) x = upds eqd (upds eqd m a) b x.
  Proof. unfold upds. rewrite fold_left_app. reflexivity. Qed.

  Definition Rep (s : okv) (p : spec K V I) : Prop :=
    (forall k, dget eqd (o_store s) k = s_committed p k) /\
    o_un_committed s = map (fun b => (fst b, mk_dict eqd (snd b))) (s_batches p) /\
    o_current s = s_current p.

  Lemma find_batches_ok bs : forall m x,
    match find_batches eqd (rev (map (fun b : I * list (K * V) => (fst b, mk_dict eqd (snd b))) bs)) x with
    | Some v => Some v | None => m x end = upds eqd m (concat (map snd bs)) x.
  Proof.
    induction bs as [|[i b] bs IH] using rev_ind; intros m x; [reflexivity|].
    rewrite !map_app, rev_app_distr, concat_app. cbn [map rev app find_batches concat snd fst].
    rewrite app_nil_r, upds_app. unfold mk_dict. rewrite dget_setBatch, !upds_find.
    destruct (find_current eqd (rev b) x); auto. cbn [dget].
    rewrite <- upds_find. apply IH.
  Qed.

  (** Reads: the committed value, or the newest uncommitted write over it. *)
  Lemma get_ok s p : Rep s p ->
    (forall k, get eqd s k true = match s_committed p k with Some v => Ok v | None => Err KeyError end) /\
    (forall k, get eqd s k false = match newest eqd p k with Some v => Ok v | None => Err KeyError end).
  Proof.
    intros (A & B & C). unfold get, store_get. split; intros k.
    - rewrite A. reflexivity.
    - unfold newest. rewrite upds_app, upds_find, C.
      destruct (find_current eqd (rev (s_current p)) k); auto.
      rewrite <- (find_batches_ok (s_batches p)), B.
      destruct (find_batches eqd _ k); auto. rewrite A. reflexivity.
  Qed.

  Lemma setBatch_false ps : forall s : okv, setBatch eqd s ps false
     = mkOkv (o_store s) (o_un_committed s) (o_current s ++ ps).
  Proof.
    unfold setBatch. induction ps as [|[k v] ps IH]; intros [a b c]; cbn [fold_left o_store o_un_committed o_current].
    - rewrite app_nil_r. reflexivity.
    - rewrite IH. cbn [set o_store o_un_committed o_current fst snd]. rewrite <- app_assoc. reflexivity.
  Qed.

  Lemma do_sim s p o : Rep s p ->
    match do s o with
    | Ok s' => exists p', sstep eqd p o p' /\ Rep s' p'
    | Err _ => s_batches p = [] /\ (o = OReject \/ o = OCommit)
    end.
  Proof.
    destruct s as [st un cur], p as [c bs w]. intros (A & B & C).
    cbn [o_store o_un_committed o_current s_committed s_batches s_current] in *. subst cur un.
    destruct o as [k v [|]|ps [|]|k|i| |]; cbn [do set remove create_batch_from_current].
    - exists (mkSpec (fun x => upd eqd c (k, v) x) bs w). split; [constructor; auto|]. repeat split; auto.
      intros x. cbn [o_store s_committed]. rewrite dget_dput. apply upd_ext. auto.
    - eexists. split; [constructor|]. repeat split; auto.
    - exists (mkSpec (fun x => upds eqd c ps x) bs w). split; [constructor; auto|]. repeat split; auto.
      intros x. cbn [setBatch o_store s_committed]. rewrite dget_setBatch. apply upds_ext. auto.
    - rewrite setBatch_false. eexists. split; [constructor|]. repeat split; auto.
    - exists (mkSpec (fun x => if eqd k x then None else c x) bs w). split; [constructor; auto|]. repeat split; auto.
      intros x. cbn [o_store s_committed]. rewrite dget_ddel. destruct (eqd k x); auto.
    - eexists. split; [constructor|]. repeat split; auto. cbn. rewrite map_app. reflexivity.
    - unfold reject_batch. cbn [o_un_committed o_store].
      destruct bs as [|b bs _] using rev_ind; [cbn; auto|].
      rewrite map_app. cbn [map]. rewrite removelast_last.
      destruct (map _ bs ++ _) eqn:E; [destruct bs; discriminate|].
      eexists. split; [constructor|]. repeat split; auto.
    - unfold commit_batch. cbn [o_un_committed o_store o_current]. destruct bs as [|[i b] bs]; [cbn; auto|].
      cbn [map fst snd bind].
      exists (mkSpec (fun x => upds eqd c b x) bs w). split; [constructor; auto|]. repeat split; auto.
      intros x. cbn [o_store s_committed]. unfold mk_dict.
      rewrite dget_setBatch, !upds_find, <- A.
      assert (FC : find_current eqd (rev (setBatch_store eqd [] b)) x = find_current eqd (rev b) x).
      { assert (ND : forall m, NoDup (map fst m) -> find_current eqd (rev m) x = @dget K V eqd m x).
        { clear. induction m as [|[k v] m IH]; intros ND; [reflexivity|]. inversion ND; subst. cbn [rev dget].
          assert (FA : forall l1 l2, find_current eqd (l1 ++ l2) x
             = match find_current eqd l1 x with Some v => Some v | None => @find_current K V eqd l2 x end).
          { induction l1 as [|[k' v'] l1 IHl]; intros l2; simpl; auto. destruct (eqd k' x); auto. }
          rewrite FA, IH by auto. cbn. destruct (eqd k x) as [->|].
          - destruct (dget eqd m x) eqn:E; auto. exfalso. apply H1.
            clear -E. induction m as [|[a b] m IH]; [discriminate|]. simpl in *. destruct (eqd a x); auto.
          - destruct (dget eqd m x); auto. }
        assert (NP : forall b m, NoDup (map fst m) -> NoDup (map fst (@setBatch_store K V eqd m b))).
        { clear. assert (NP1 : forall m k v, NoDup (map fst m) -> NoDup (map fst (@dput K V eqd m k v))).
          { induction m as [|[a c] m IH]; intros k v ND; simpl; [repeat constructor; auto|].
            inversion ND; subst. destruct (eqd a k) as [->|N]; simpl; auto. constructor; auto.
            intros X. apply H1. clear -X N. induction m as [|[a' c'] m IH]; simpl in *; [destruct X; [congruence|tauto]|].
            destruct (eqd a' k); simpl in *; tauto. }
          induction b as [|[k v] b IH]; intros m ND; auto. cbn [setBatch_store fold_left]. apply IH. apply NP1. auto. }
        rewrite ND by (apply NP; constructor). rewrite dget_setBatch, upds_find. destruct (find_current eqd (rev b) x); auto. }
      rewrite FC. reflexivity.
  Qed.

  (** For every history the store behaves as the specification; no call fails except commit
      and reject without batches. *)
  Theorem C35_refines : forall os (store : dict K V),
    let s0 := mkOkv store [] [] in
    let p0 := mkSpec (dget eqd store) [] [] in
    match run s0 os with
    | Ok s => exists p, ssteps eqd p0 os p /\
        (forall k, get eqd s k true = match s_committed p k with Some v => Ok v | None => Err KeyError end) /\
        (forall k, get eqd s k false = match newest eqd p k with Some v => Ok v | None => Err KeyError end) /\
        first_batch_idr s = match s_batches p with [] => None | b :: _ => Some (fst b) end
    | Err _ => exists os1 os2 p, (os = os1 ++ OReject :: os2 \/ os = os1 ++ OCommit :: os2) /\
        ssteps eqd p0 os1 p /\ s_batches p = []
    end.
  Proof.
    intros os store s0 p0.
    assert (R0 : Rep s0 p0) by (repeat split). revert R0. generalize s0 p0. clear s0 p0.
    induction os as [|o os IH]; intros s p R; cbn [run].
    - exists p. split; [constructor|]. destruct (get_ok s p R) as [G1 G2]. split; auto. split; auto.
      destruct R as (_ & B & _). unfold first_batch_idr. rewrite B. destruct (s_batches p) as [|[i b] bs]; reflexivity.
    - pose proof (do_sim s p o R) as D. destruct (do s o) as [s'|e]; cbn [bind].
      + destruct D as (p1 & S1 & R1). specialize (IH s' p1 R1). destruct (run s' os) as [s2|].
        * destruct IH as (p2 & S2 & Q). exists p2. split; [econstructor; eauto|auto].
        * destruct IH as (os1 & os2 & p2 & E & S2 & Q). exists (o :: os1), os2, p2.
          split; [destruct E as [->| ->]; [left|right]; reflexivity|]. split; auto. econstructor; eauto.
      + destruct D as [E [->| ->]]; exists [], os, p; (split; [auto|]); (split; [constructor|auto]).
  Qed.

  (** Committing returns the identifier of the oldest batch and adds exactly its writes. *)
  Theorem C35_commit : forall s i (s' : okv), commit_batch eqd s = Ok (i, s') ->
    first_batch_idr s = Some i /\ o_current s' = o_current s /\
    length (o_un_committed s) = S (length (o_un_committed s')).
  Proof.
    intros [st [|[j b] un] cur] i s' E; [discriminate|]. cbn in E. inversion E; subst. auto.
  Qed.
End Props.

(** Finding: removing an uncommitted key keeps that key's writes of the current batch and drops
    those of every other key (line 77: the comparison is the wrong way round). *)
Theorem C35_remove_refuted : exists (s : okv nat nat nat) k k',
  k <> k' /\ s = set Nat.eq_dec (set Nat.eq_dec (mkOkv [] [] []) k 10 false) k' 20 false /\
  get Nat.eq_dec (remove Nat.eq_dec s k false) k false = Ok 10 /\
  get Nat.eq_dec (remove Nat.eq_dec s k false) k' false = Err KeyError.
Proof. eexists _, 1, 2. split; [discriminate|]. split; [reflexivity|]. split; reflexivity. Qed.

(** What it does, for every state: only the removed key keeps its uncommitted writes. *)
Theorem C35_remove_inverted : forall {K V I : Type} (eqd : forall x y : K, {x = y} + {x <> y}) (s : okv K V I) k,
  get eqd (remove eqd s k false) k false = get eqd s k false /\
  forall k', k' <> k -> get eqd (remove eqd s k false) k' false
     = get eqd (mkOkv (o_store s) (o_un_committed s) []) k' false.
Proof.
  intros K V I eqd [st un cur] k. unfold get, remove, store_get. cbn [o_store o_un_committed o_current].
  assert (F : forall k', find_current eqd (rev (filter (fun p => if eqd (fst p) k then true else false) cur)) k'
     = if eqd k k' then find_current eqd (rev cur) k' else None).
  { intros k'. 
    assert (FA : forall l1 l2, find_current eqd (l1 ++ l2) k'
       = match find_current eqd l1 k' with Some v => Some v | None => @find_current K V eqd l2 k' end).
    { induction l1 as [|[a v'] l1 IHl]; intros l2; simpl; auto. destruct (eqd a k'); auto. }
    induction cur as [|[a v] cur IH]; simpl; [destruct (eqd k k'); auto|].
    rewrite FA. destruct (eqd a k) as [->|N]; simpl.
    - rewrite FA, IH. destruct (eqd k k') as [->|]; simpl; [destruct (eqd k' k'); congruence|].
      destruct (eqd k k'); [congruence|reflexivity].
    - rewrite IH. destruct (eqd k k') as [->|]; auto. destruct (find_current eqd (rev cur) k'); auto.
      destruct (eqd a k'); congruence. }
  split.
  - rewrite F. destruct (eqd k k); [reflexivity|congruence].
  - intros k' N. rewrite F. destruct (eqd k k'); [congruence|]. reflexivity.
Qed.

Example ex_C35 :
  exists s, run Nat.eq_dec (mkOkv [(1, 100)] [] [] : okv nat nat nat)
    [OSet 1 5 false; OSet 2 6 false; OCreate 71; OSet 1 7 false; OCreate 72; OSet 3 8 false; OCommit; OReject; OSet 2 9 false]
    = Ok s /\ get Nat.eq_dec s 1 false = Ok 5 /\ get Nat.eq_dec s 2 false = Ok 9 /\ get Nat.eq_dec s 2 true = Ok 6 /\
    get Nat.eq_dec s 3 false = Err KeyError /\ first_batch_idr s = None.
Proof. eexists. repeat split; reflexivity. Qed.

Print Assumptions C35_refines.
Print Assumptions C35_commit.
Print Assumptions C35_remove_refuted.
Print Assumptions C35_remove_inverted.
