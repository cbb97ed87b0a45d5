(** Tries as trees: lookup, update, deletion and the uniqueness of well-formed tries.
    Nothing here is part of a statement about the code; Trie_Proofs.v shows that the model of
    the code computes these functions. *)
From Coq Require Import List Arith NArith Bool Lia.
From Verif Require Import Base Rlp_Model Rlp_Props Trie_Model.
Import ListNotations.

Inductive tnode :=
| TLeaf (k : nibbles) (v : bytes)
| TExt (k : nibbles) (c : tnode)
| TBranch (cs : list (option tnode)) (v : bytes).

Section TInd.
  Variable P : tnode -> Prop.
  Hypothesis HL : forall k v, P (TLeaf k v).
  Hypothesis HE : forall k c, P c -> P (TExt k c).
  Hypothesis HB : forall cs v, (forall c, In (Some c) cs -> P c) -> P (TBranch cs v).
  Fixpoint tnode_ind' (t : tnode) : P t.
  Proof.
    refine (match t with
    | TLeaf k v => HL k v
    | TExt k c => HE k c (tnode_ind' c)
    | TBranch cs v => HB cs v _
    end).
    induction cs as [|o cs' IH]; intros c Hin; [destruct Hin|].
    destruct Hin as [E|Hin]; [|exact (IH c Hin)].
    destruct o as [c0|]; [|discriminate]. injection E as <-. exact (tnode_ind' c0).
  Defined.
End TInd.

(** ** Lists *)
Lemma set_nth_length {A} i (x : A) l : length (set_nth i x l) = length l.
Proof.
  unfold set_nth. destruct (Nat.ltb_spec i (length l)); auto.
  rewrite app_length, firstn_length. cbn [length]. rewrite skipn_length. lia.
Qed.
Lemma nth_set_nth {A} i j (x d : A) l : i < length l ->
  nth j (set_nth i x l) d = if j =? i then x else nth j l d.
Proof.
  intros Hi. unfold set_nth. destruct (Nat.ltb_spec i (length l)); [|lia].
  destruct (Nat.eqb_spec j i) as [->|Hj].
  - rewrite app_nth2; rewrite firstn_length, Nat.min_l by lia; [|lia]. rewrite Nat.sub_diag. reflexivity.
  - destruct (lt_dec j i).
    + rewrite app_nth1 by (rewrite firstn_length; lia).
      rewrite <- (firstn_skipn i l) at 2. rewrite app_nth1; [reflexivity|]. rewrite firstn_length. lia.
    + rewrite app_nth2; rewrite firstn_length, Nat.min_l by lia; [|lia].
      replace (j - i) with (S (j - i - 1)) by lia. cbn [nth].
      rewrite <- (firstn_skipn (S i) l) at 2. rewrite app_nth2; rewrite firstn_length, Nat.min_l by lia; [|lia].
      f_equal. lia.
Qed.
Lemma set_nth_In {A} i (x y : A) l : In y (set_nth i x l) -> y = x \/ In y l.
Proof.
  unfold set_nth. destruct (i <? length l); auto. rewrite in_app_iff. cbn [In]. intros [Hy|[<-|Hy]]; auto.
  - right. rewrite <- (firstn_skipn i l). apply in_or_app. auto.
  - right. rewrite <- (firstn_skipn (S i) l). apply in_or_app. auto.
Qed.
Lemma map_set_nth {A B} (f : A -> B) i x l : map f (set_nth i x l) = set_nth i (f x) (map f l).
Proof.
  unfold set_nth. rewrite map_length. destruct (i <? length l); auto.
  rewrite map_app. cbn [map]. rewrite firstn_map, skipn_map. reflexivity.
Qed.
Lemma set_nth_app {A} i (x : A) l m : i < length l -> set_nth i x (l ++ m) = set_nth i x l ++ m.
Proof.
  intros Hi. unfold set_nth. rewrite app_length. rewrite (proj2 (Nat.ltb_lt i _)) by lia.
  rewrite (proj2 (Nat.ltb_lt i (length l))) by lia.
  rewrite firstn_app. replace (i - length l) with 0 by lia. rewrite firstn_O, app_nil_r.
  rewrite skipn_app. replace (S i - length l) with 0 by lia. cbn [skipn].
  rewrite <- app_assoc. reflexivity.
Qed.
Lemma set_nth_self {A} i (d : A) l : i < length l -> set_nth i (nth i l d) l = l.
Proof.
  intros Hi. apply (nth_ext _ _ d d); [apply set_nth_length|].
  intros j Hj. rewrite set_nth_length in Hj. rewrite nth_set_nth by auto.
  destruct (Nat.eqb_spec j i) as [->|]; reflexivity.
Qed.

Definition cnt {A} (f : A -> bool) (l : list A) : nat := length (filter f l).
Lemma cnt_app {A} (f : A -> bool) l m : cnt f (l ++ m) = cnt f l + cnt f m.
Proof. unfold cnt. rewrite filter_app, app_length. reflexivity. Qed.
Lemma cnt_cons {A} (f : A -> bool) x l : cnt f (x :: l) = Nat.b2n (f x) + cnt f l.
Proof. unfold cnt. simpl. destruct (f x); reflexivity. Qed.
Lemma cnt_set_nth {A} (f : A -> bool) i x d l : i < length l ->
  cnt f (set_nth i x l) + Nat.b2n (f (nth i l d)) = cnt f l + Nat.b2n (f x).
Proof.
  intros Hi. destruct (nth_split l d Hi) as (a & b & E & L).
  set (y := nth i l d) in *. clearbody y. subst l i. unfold set_nth. rewrite app_length. cbn [length].
  rewrite (proj2 (Nat.ltb_lt _ _)) by lia.
  rewrite firstn_app, Nat.sub_diag, firstn_O, app_nil_r, firstn_all.
  rewrite skipn_app. replace (S (length a) - length a) with 1 by lia.
  rewrite skipn_all2 by lia. cbn [skipn app].
  rewrite !cnt_app, !cnt_cons. lia.
Qed.
Lemma cnt_repeat {A} (f : A -> bool) x n : f x = false -> cnt f (repeat x n) = 0.
Proof. intros E. unfold cnt. induction n; simpl; auto. rewrite E. auto. Qed.
Lemma nth_repeat_any {A} (x : A) n i : nth i (repeat x n) x = x.
Proof. revert i. induction n; intros [|i]; simpl; auto. Qed.

(** ** Prefixes *)
Lemma starts_with_spec full part : starts_with full part = true <-> exists r, full = part ++ r.
Proof.
  unfold starts_with. destruct (Nat.ltb_spec (length full) (length part)) as [L|L].
  - split; [discriminate|]. intros [r ->]. rewrite app_length in L. lia.
  - rewrite bytes_eqb_eq. split.
    + intros E. exists (skipn (length part) full). rewrite <- E at 1. symmetry. apply firstn_skipn.
    + intros [r ->]. rewrite firstn_app, Nat.sub_diag, firstn_O, app_nil_r, firstn_all. reflexivity.
Qed.
Lemma starts_with_app part r : starts_with (part ++ r) part = true.
Proof. apply starts_with_spec. eauto. Qed.
Lemma starts_with_nil full : starts_with full [] = true.
Proof. apply starts_with_spec. exists full. reflexivity. Qed.
Lemma starts_with_app_both p a b : starts_with (p ++ a) (p ++ b) = starts_with a b.
Proof.
  destruct (starts_with a b) eqn:E.
  - apply starts_with_spec in E as [r ->]. apply starts_with_spec. exists r. apply app_assoc.
  - apply not_true_is_false. intros X. apply starts_with_spec in X as [r X].
    rewrite <- app_assoc in X. apply app_inv_head in X. subst a. rewrite starts_with_app in E. discriminate.
Qed.
Lemma starts_with_trans_false a p q : starts_with a p = false -> starts_with a (p ++ q) = false.
Proof.
  intros E. apply not_true_is_false. intros X. apply starts_with_spec in X as [r ->].
  rewrite <- app_assoc, starts_with_app in E. discriminate.
Qed.
Lemma skipn_app_exact {A} (a b : list A) : skipn (length a) (a ++ b) = b.
Proof. rewrite skipn_app, skipn_all, Nat.sub_diag. reflexivity. Qed.
Lemma bytes_eqb_refl a : bytes_eqb a a = true.
Proof. apply bytes_eqb_eq. reflexivity. Qed.
Lemma bytes_eqb_neq a b : a <> b -> bytes_eqb a b = false.
Proof. intros N. apply not_true_is_false. rewrite bytes_eqb_eq. exact N. Qed.
Lemma bytes_eqb_app p a b : bytes_eqb (p ++ a) (p ++ b) = bytes_eqb a b.
Proof.
  destruct (bytes_eqb a b) eqn:E.
  - apply bytes_eqb_eq in E as ->. apply bytes_eqb_refl.
  - apply bytes_eqb_neq. intros X. apply app_inv_head in X. subst. rewrite bytes_eqb_refl in E. discriminate.
Qed.

Lemma lcp_spec a : forall b, exists pfx ra rb, a = pfx ++ ra /\ b = pfx ++ rb /\ length pfx = lcp a b /\
  match ra, rb with x :: _, y :: _ => x <> y | _, _ => True end.
Proof.
  induction a as [|x a IH]; intros [|y b].
  - exists [], [], []. auto.
  - exists [], [], (y :: b). auto.
  - exists [], (x :: a), []. auto.
  - cbn [lcp]. destruct (N.eqb_spec x y) as [->|N].
    + destruct (IH b) as (p & ra & rb & -> & -> & L & D). exists (y :: p), ra, rb.
      cbn [length app]. rewrite L. auto.
    + exists [], (x :: a), (y :: b). auto.
Qed.

(** ** Lookup *)
Fixpoint tget (t : tnode) (key : nibbles) : bytes :=
  match t with
  | TLeaf k v => if bytes_eqb key k then v else []
  | TExt k c => if starts_with key k then tget c (skipn (length k) key) else []
  | TBranch cs v =>
    match key with
    | [] => v
    | k0 :: ks =>
      (fix go cs i := match cs, i with
                      | [], _ => []
                      | o :: _, 0 => match o with Some c => tget c ks | None => [] end
                      | _ :: cs', S i' => go cs' i'
                      end) cs (N.to_nat k0)
    end
  end.
Definition oget (o : option tnode) (key : nibbles) : bytes :=
  match o with Some t => tget t key | None => [] end.

Lemma tget_branch cs v k0 ks : tget (TBranch cs v) (k0 :: ks) = oget (nth (N.to_nat k0) cs None) ks.
Proof.
  cbn [tget]. generalize (N.to_nat k0) as i. induction cs as [|o cs IH]; intros [|i]; auto.
  cbn [nth]. apply IH.
Qed.
Lemma tget_branch_nil cs v : tget (TBranch cs v) [] = v.
Proof. reflexivity. Qed.
Lemma tget_ext k c key : tget (TExt k c) key = if starts_with key k then tget c (skipn (length k) key) else [].
Proof. reflexivity. Qed.

Lemma tget_leaf k v key : tget (TLeaf k v) key = if bytes_eqb key k then v else [].
Proof. reflexivity. Qed.

(** ** Update *)
Definition empty16 : list (option tnode) := repeat None 16.
Definition pre (p : nat) (ck : nibbles) (t : tnode) : tnode := if 0 <? p then TExt (firstn p ck) t else t.
Definition fork (c0 : N) (sub : tnode) (rk : nibbles) (v : bytes) : tnode :=
  match rk with
  | [] => TBranch (set_nth (N.to_nat c0) (Some sub) empty16) v
  | r0 :: rs => TBranch (set_nth (N.to_nat r0) (Some (TLeaf rs v)) (set_nth (N.to_nat c0) (Some sub) empty16)) []
  end.
Definition ext_opt (k : nibbles) (c : tnode) : tnode := match k with [] => c | _ => TExt k c end.

Fixpoint tupd (t : tnode) (key : nibbles) (v : bytes) : tnode :=
  match t with
  | TLeaf ck val =>
    let p := lcp ck key in
    match skipn p ck, skipn p key with
    | [], [] => TLeaf ck v
    | [], r0 :: rs => pre p ck (TBranch (set_nth (N.to_nat r0) (Some (TLeaf rs v)) empty16) val)
    | c0 :: cs, rk => pre p ck (fork c0 (TLeaf cs val) rk v)
    end
  | TExt ck ch =>
    let p := lcp ck key in
    match skipn p ck with
    | [] => pre p ck (tupd ch (skipn p key) v)
    | c0 :: cs => pre p ck (fork c0 (ext_opt cs ch) (skipn p key) v)
    end
  | TBranch cs val =>
    match key with
    | [] => TBranch cs v
    | k0 :: ks =>
      TBranch ((fix go cs i := match cs, i with
                      | [], _ => []
                      | o :: cs', 0 => Some (match o with Some c => tupd c ks v | None => TLeaf ks v end) :: cs'
                      | o :: cs', S i' => o :: go cs' i'
                      end) cs (N.to_nat k0)) val
    end
  end.
Definition oupd (o : option tnode) (key : nibbles) (v : bytes) : tnode :=
  match o with Some t => tupd t key v | None => TLeaf key v end.

Lemma tupd_branch cs val k0 ks v : tupd (TBranch cs val) (k0 :: ks) v
  = TBranch (set_nth (N.to_nat k0) (Some (oupd (nth (N.to_nat k0) cs None) ks v)) cs) val.
Proof.
  cbn [tupd]. f_equal. generalize (N.to_nat k0) as i.
  induction cs as [|o cs IH]; intros [|i]; auto.
  rewrite IH. unfold set_nth. cbn [length nth]. change (S i <? S (length cs)) with (i <? length cs).
  destruct (i <? length cs); reflexivity.
Qed.

(** ** Well-formedness *)
Definition is_some {A} (o : option A) : bool := match o with Some _ => true | None => false end.
Definition nonempty (v : bytes) : bool := match v with [] => false | _ => true end.
Definition entries (cs : list (option tnode)) (v : bytes) : nat := cnt is_some cs + Nat.b2n (nonempty v).
Definition is_branch (t : tnode) : Prop := match t with TBranch _ _ => True | _ => False end.

Inductive wf : tnode -> Prop :=
| wf_leaf k v : is_nibbles k -> v <> [] -> wf (TLeaf k v)
| wf_ext k c : is_nibbles k -> k <> [] -> is_branch c -> wf c -> wf (TExt k c)
| wf_branch cs v : length cs = 16 -> (forall c, In (Some c) cs -> wf c) -> 2 <= entries cs v ->
    wf (TBranch cs v).
Definition owf (o : option tnode) : Prop := match o with Some t => wf t | None => True end.

Lemma nibble_lt k0 ks : is_nibbles (k0 :: ks) -> N.to_nat k0 < 16 /\ is_nibbles ks.
Proof. intros Hn. inversion Hn; subst. split; [lia|auto]. Qed.

Lemma nth_owf cs i : (forall c, In (Some c) cs -> wf c) -> owf (nth i cs None).
Proof.
  intros Hc. destruct (le_lt_dec (length cs) i) as [L|L]; [rewrite nth_overflow by auto; exact I|].
  pose proof (nth_In cs None L) as Hin. destruct (nth i cs None) as [c|]; simpl; auto.
Qed.

(** The two-way case analysis shared by all proofs about leaves and extensions: split at the
    common prefix. *)
Lemma skipn_firstn_lcp a b : exists pfx ra rb, a = pfx ++ ra /\ b = pfx ++ rb /\
  firstn (lcp a b) a = pfx /\ skipn (lcp a b) a = ra /\ skipn (lcp a b) b = rb /\ length pfx = lcp a b /\
  match ra, rb with x :: _, y :: _ => x <> y | _, _ => True end.
Proof.
  destruct (lcp_spec a b) as (p & ra & rb & E1 & E2 & L & D). exists p, ra, rb.
  split; auto. split; auto. rewrite <- L. rewrite E1 at 1 2. rewrite E2.
  rewrite firstn_app, Nat.sub_diag, firstn_O, app_nil_r, firstn_all, !skipn_app_exact. auto 10.
Qed.

Lemma tget_pre pfx ra t key : tget (pre (length pfx) (pfx ++ ra) t) key
  = if starts_with key pfx then tget t (skipn (length pfx) key) else [].
Proof.
  unfold pre. destruct pfx as [|x pfx].
  - cbn [length Nat.ltb Nat.leb]. rewrite starts_with_nil. reflexivity.
  - cbn [length Nat.ltb Nat.leb]. rewrite tget_ext.
    change (S (length pfx)) with (length (x :: pfx)).
    rewrite firstn_app, Nat.sub_diag, firstn_O, app_nil_r, firstn_all. reflexivity.
Qed.

Lemma tget_ext_opt k c key : tget (ext_opt k c) key = if starts_with key k then tget c (skipn (length k) key) else [].
Proof. destruct k; simpl ext_opt; [rewrite starts_with_nil; reflexivity|apply tget_ext]. Qed.

Lemma to_nat_eqb a b : (N.to_nat a =? N.to_nat b) = N.eqb a b.
Proof. destruct (N.eqb_spec a b) as [->|N]; [apply Nat.eqb_refl|]. apply Nat.eqb_neq. lia. Qed.

(** What a fork holds: [sub] under [c0], the new value under [rk]. *)
Lemma tget_fork c0 sub rk v key : (c0 < 16)%N -> is_nibbles rk -> is_nibbles key ->
  match rk with y :: _ => c0 <> y | [] => True end ->
  tget (fork c0 sub rk v) key =
    if bytes_eqb key rk then v
    else match key with [] => [] | k0 :: ks => if N.eqb k0 c0 then tget sub ks else [] end.
Proof.
  intros Hc Hr Hk D. destruct rk as [|r0 rs]; cbn [fork].
  - destruct key as [|k0 ks]; [rewrite bytes_eqb_refl; reflexivity|].
    rewrite (bytes_eqb_neq (k0 :: ks) []) by discriminate.
    rewrite tget_branch, nth_set_nth by (unfold empty16; rewrite repeat_length; lia).
    rewrite to_nat_eqb. destruct (N.eqb k0 c0); [reflexivity|].
    unfold empty16. rewrite nth_repeat_any. reflexivity.
  - apply nibble_lt in Hr as [Hr0 Hrs].
    destruct key as [|k0 ks]; [rewrite (bytes_eqb_neq [] (r0 :: rs)) by discriminate; reflexivity|].
    rewrite tget_branch, nth_set_nth by (rewrite set_nth_length; unfold empty16; rewrite repeat_length; lia).
    rewrite nth_set_nth by (unfold empty16; rewrite repeat_length; lia).
    rewrite !to_nat_eqb. destruct (N.eqb_spec k0 r0) as [->|N].
    + cbn [oget tget]. change (r0 :: ks) with ([r0] ++ ks). change (r0 :: rs) with ([r0] ++ rs).
      rewrite bytes_eqb_app. destruct (bytes_eqb ks rs); auto.
      destruct (N.eqb_spec r0 c0); [congruence|reflexivity].
    + rewrite (bytes_eqb_neq (k0 :: ks) (r0 :: rs)) by congruence.
      destruct (N.eqb k0 c0); [reflexivity|]. unfold empty16. rewrite nth_repeat_any. reflexivity.
Qed.

Lemma is_nibbles_app a b : is_nibbles (a ++ b) <-> is_nibbles a /\ is_nibbles b.
Proof. apply Forall_app. Qed.

Theorem tget_tupd t : wf t -> forall key v key', is_nibbles key -> is_nibbles key' ->
  tget (tupd t key v) key' = if bytes_eqb key' key then v else tget t key'.
Proof.
  induction t as [ck val|ck ch IH|cs val IH] using tnode_ind'; intros W key v key' Hk Hk'; inversion W; subst.
  - (* leaf *)
    cbn [tupd].
    destruct (skipn_firstn_lcp ck key) as (pfx & ra & rb & E1 & E2 & F & S1 & S2 & L & D).
    rewrite S1, S2, <- L. rewrite E1 in *. rewrite E2 in *. clear E1 E2 F S1 S2 L.
    match goal with Hn : is_nibbles (pfx ++ ra) |- _ => apply is_nibbles_app in Hn as [Hp Hra] end.
    apply is_nibbles_app in Hk as [_ Hrb].
    destruct ra as [|c0 cs].
    + destruct rb as [|r0 rs].
      * rewrite !app_nil_r. cbn [tget]. destruct (bytes_eqb key' pfx); reflexivity.
      * rewrite tget_pre. destruct (starts_with key' pfx) eqn:Es.
        -- apply starts_with_spec in Es as [k' ->]. rewrite skipn_app_exact, bytes_eqb_app.
           rewrite tget_leaf, bytes_eqb_app. apply is_nibbles_app in Hk' as [_ Hk'].
           apply nibble_lt in Hrb as [Hr0 Hrs].
           destruct k' as [|k0 ks].
           { rewrite tget_branch_nil, bytes_eqb_refl, (bytes_eqb_neq [] (r0 :: rs)) by discriminate. reflexivity. }
           rewrite (bytes_eqb_neq (k0 :: ks) []) by discriminate.
           rewrite tget_branch, nth_set_nth by (unfold empty16; rewrite repeat_length; lia).
           rewrite to_nat_eqb. destruct (N.eqb_spec k0 r0) as [->|N].
           ++ cbn [oget tget]. change (r0 :: ks) with ([r0] ++ ks). change (r0 :: rs) with ([r0] ++ rs).
              rewrite bytes_eqb_app. reflexivity.
           ++ rewrite (bytes_eqb_neq (k0 :: ks) (r0 :: rs)) by congruence.
              unfold empty16. rewrite nth_repeat_any. reflexivity.
        -- assert (forall q, key' <> pfx ++ q) as Nq.
           { intros q ->. rewrite starts_with_app in Es. discriminate. }
           rewrite bytes_eqb_neq by apply Nq. cbn [tget]. rewrite bytes_eqb_neq by apply Nq. reflexivity.
    + apply nibble_lt in Hra as [Hc0 Hcs].
      rewrite tget_pre. destruct (starts_with key' pfx) eqn:Es.
      * apply starts_with_spec in Es as [k' ->]. rewrite skipn_app_exact, bytes_eqb_app.
        rewrite tget_leaf, bytes_eqb_app. apply is_nibbles_app in Hk' as [_ Hk'].
        rewrite tget_fork; [|lia|auto|auto|destruct rb; auto].
        destruct (bytes_eqb k' rb); auto. destruct k' as [|k0 ks]; [rewrite bytes_eqb_neq by discriminate; reflexivity|].
        destruct (N.eqb_spec k0 c0) as [->|N].
        -- cbn [tget]. change (c0 :: ks) with ([c0] ++ ks). change (c0 :: cs) with ([c0] ++ cs).
           rewrite bytes_eqb_app. reflexivity.
        -- rewrite bytes_eqb_neq by congruence. reflexivity.
      * assert (forall q, key' <> pfx ++ q) as Nq.
        { intros q ->. rewrite starts_with_app in Es. discriminate. }
        rewrite bytes_eqb_neq by apply Nq. cbn [tget]. rewrite bytes_eqb_neq by apply Nq. reflexivity.
  - (* extension *)
    cbn [tupd].
    destruct (skipn_firstn_lcp ck key) as (pfx & ra & rb & E1 & E2 & F & S1 & S2 & L & D).
    rewrite S1, S2, <- L. rewrite E1 in *. rewrite E2 in *. clear E1 E2 F S1 S2 L.
    match goal with Hn : is_nibbles (pfx ++ ra) |- _ => apply is_nibbles_app in Hn as [Hp Hra] end.
    apply is_nibbles_app in Hk as [_ Hrb].
    destruct ra as [|c0 cs]; rewrite tget_pre; rewrite tget_ext.
    + rewrite app_nil_r in *. destruct (starts_with key' pfx) eqn:Es.
      * apply starts_with_spec in Es as [k' ->]. rewrite skipn_app_exact, bytes_eqb_app.
        apply is_nibbles_app in Hk' as [_ Hk']. apply IH; auto.
      * rewrite bytes_eqb_neq; auto. intros ->. rewrite starts_with_app in Es. discriminate.
    + apply nibble_lt in Hra as [Hc0 Hcs].
      destruct (starts_with key' pfx) eqn:Es.
      * apply starts_with_spec in Es as [k' ->]. rewrite skipn_app_exact, bytes_eqb_app, starts_with_app_both.
        apply is_nibbles_app in Hk' as [_ Hk'].
        rewrite tget_fork; [|lia|auto|auto|destruct rb; auto].
        destruct (bytes_eqb k' rb); auto. destruct k' as [|k0 ks]; [reflexivity|].
        destruct (N.eqb_spec k0 c0) as [->|N].
        -- rewrite tget_ext_opt. change (starts_with (c0 :: ks) (c0 :: cs)) with (starts_with ([c0] ++ ks) ([c0] ++ cs)).
           rewrite starts_with_app_both. destruct (starts_with ks cs); auto. f_equal.
           rewrite app_length, <- skipn_skipn, skipn_app_exact. reflexivity.
        -- destruct (starts_with (k0 :: ks) (c0 :: cs)) eqn:Ef; auto.
           apply starts_with_spec in Ef as [r Ef]. injection Ef. congruence.
      * rewrite starts_with_trans_false by auto. rewrite bytes_eqb_neq; auto.
        intros ->. rewrite starts_with_app in Es. discriminate.
  - (* branch *)
    destruct key as [|k0 ks].
    + cbn [tupd]. destruct key' as [|x key']; [rewrite bytes_eqb_refl; reflexivity|].
      rewrite bytes_eqb_neq by discriminate. rewrite !tget_branch. reflexivity.
    + rewrite tupd_branch. apply nibble_lt in Hk as [Hk0 Hks].
      destruct key' as [|k0' ks']; [rewrite bytes_eqb_neq by discriminate; reflexivity|].
      apply nibble_lt in Hk' as [Hk0' Hks'].
      rewrite !tget_branch, nth_set_nth by lia. rewrite to_nat_eqb.
      destruct (N.eqb_spec k0' k0) as [->|N].
      * change (k0 :: ks') with ([k0] ++ ks'). change (k0 :: ks) with ([k0] ++ ks). rewrite bytes_eqb_app.
        cbn [oget]. pose proof (nth_owf cs (N.to_nat k0) H2) as Ho.
        assert (Hi : N.to_nat k0 < length cs) by lia. pose proof (nth_In cs None Hi) as Hin.
        destruct (nth (N.to_nat k0) cs None) as [c|]; cbn [oupd oget owf] in *.
        -- apply IH; auto.
        -- cbn [tget]. reflexivity.
      * rewrite bytes_eqb_neq by congruence. reflexivity.
Qed.

(** ** Updates keep tries well-formed *)
Lemma wf_pre pfx ra t : is_nibbles pfx -> is_branch t -> wf t -> wf (pre (length pfx) (pfx ++ ra) t).
Proof.
  intros Hp Hb Hw. unfold pre. destruct pfx as [|x pfx]; [exact Hw|].
  cbn [length Nat.ltb Nat.leb]. change (S (length pfx)) with (length (x :: pfx)).
  rewrite firstn_app, Nat.sub_diag, firstn_O, app_nil_r, firstn_all.
  constructor; auto. discriminate.
Qed.

Lemma nonempty_neq v : v <> [] -> nonempty v = true.
Proof. destruct v; [congruence|reflexivity]. Qed.

Lemma wf_fork c0 sub rk v : (c0 < 16)%N -> wf sub -> is_nibbles rk -> v <> [] ->
  match rk with y :: _ => c0 <> y | [] => True end -> wf (fork c0 sub rk v) /\ is_branch (fork c0 sub rk v).
Proof.
  intros Hc Ws Hr Hv D.
  assert (L : N.to_nat c0 < length empty16) by (unfold empty16; rewrite repeat_length; lia).
  assert (E0 : cnt is_some empty16 = 0) by reflexivity.
  assert (Hempty : forall c, In (Some c) empty16 -> False).
  { intros c Hc'. apply repeat_spec in Hc'. discriminate. }
  destruct rk as [|r0 rs]; cbn [fork is_branch]; (split; [|exact I]).
  - constructor.
    + rewrite set_nth_length. reflexivity.
    + intros c Hin. apply set_nth_In in Hin as [E|Hin]; [injection E as ->; auto|destruct (Hempty _ Hin)].
    + unfold entries. rewrite (nonempty_neq v Hv).
      pose proof (cnt_set_nth is_some (N.to_nat c0) (Some sub) None empty16 L) as C.
      unfold empty16 in C at 2. rewrite nth_repeat_any in C. rewrite E0 in C. simpl in C |- *. lia.
  - apply nibble_lt in Hr as [Hr0 Hrs].
    assert (L2 : N.to_nat r0 < length (set_nth (N.to_nat c0) (Some sub) empty16)).
    { rewrite set_nth_length. unfold empty16. rewrite repeat_length. lia. }
    constructor.
    + rewrite !set_nth_length. reflexivity.
    + intros c Hin. apply set_nth_In in Hin as [E|Hin]; [injection E as ->; constructor; auto|].
      apply set_nth_In in Hin as [E|Hin]; [injection E as ->; auto|destruct (Hempty _ Hin)].
    + unfold entries.
      pose proof (cnt_set_nth is_some (N.to_nat c0) (Some sub) None empty16 L) as C.
      unfold empty16 in C at 2. rewrite nth_repeat_any in C. rewrite E0 in C.
      pose proof (cnt_set_nth is_some (N.to_nat r0) (Some (TLeaf rs v)) None _ L2) as C2.
      rewrite nth_set_nth in C2 by auto. rewrite to_nat_eqb in C2.
      destruct (N.eqb_spec r0 c0); [congruence|].
      assert (En : nth (N.to_nat r0) empty16 None = None) by (unfold empty16; apply nth_repeat_any).
      rewrite En in C2. cbn [is_some Nat.b2n nonempty] in C, C2 |- *. lia.
Qed.

Lemma wf_ext_opt k c : is_nibbles k -> is_branch c -> wf c -> wf (ext_opt k c).
Proof. intros Hk Hb Hw. destruct k; simpl; auto. constructor; auto. discriminate. Qed.

Theorem wf_tupd t : wf t -> forall key v, is_nibbles key -> v <> [] ->
  wf (tupd t key v) /\ (is_branch t -> is_branch (tupd t key v)).
Proof.
  induction t as [ck val|ck ch IH|cs val IH] using tnode_ind'; intros W key v Hk Hv; inversion W as [? ? Wk Wv|? ? Wk Wn Wb Wc|? ? Wl Wcs We]; subst.
  - split; [|intros []]. cbn [tupd].
    destruct (skipn_firstn_lcp ck key) as (pfx & ra & rb & E1 & E2 & F & S1 & S2 & L & D).
    rewrite S1, S2, <- L. rewrite E1 in *. rewrite E2 in *. clear E1 E2 F S1 S2 L.
    match goal with Hn : is_nibbles (pfx ++ ra) |- _ => apply is_nibbles_app in Hn as [Hp Hra] end.
    apply is_nibbles_app in Hk as [_ Hrb].
    destruct ra as [|c0 cs].
    + destruct rb as [|r0 rs]; [constructor; auto; rewrite app_nil_r; auto|].
      apply nibble_lt in Hrb as [Hr0 Hrs]. apply wf_pre; [auto|exact I|].
      assert (L : N.to_nat r0 < length empty16) by (unfold empty16; rewrite repeat_length; lia).
      constructor.
      * rewrite set_nth_length. reflexivity.
      * intros c Hin. apply set_nth_In in Hin as [E|Hin]; [injection E as ->; constructor; auto|].
        apply repeat_spec in Hin. discriminate.
      * unfold entries. rewrite (nonempty_neq val) by auto.
        pose proof (cnt_set_nth is_some (N.to_nat r0) (Some (TLeaf rs v)) None empty16 L) as C.
        unfold empty16 in C at 2 3. rewrite nth_repeat_any in C. simpl in C |- *. lia.
    + apply nibble_lt in Hra as [Hc0 Hcs].
      destruct (wf_fork c0 (TLeaf cs val) rb v) as [Wf Bf]; auto; [lia|constructor; auto|].
      apply wf_pre; auto.
  - split; [|intros []]. cbn [tupd].
    destruct (skipn_firstn_lcp ck key) as (pfx & ra & rb & E1 & E2 & F & S1 & S2 & L & D).
    rewrite S1, S2, <- L. rewrite E1 in *. rewrite E2 in *. clear E1 E2 F S1 S2 L.
    match goal with Hn : is_nibbles (pfx ++ ra) |- _ => apply is_nibbles_app in Hn as [Hp Hra] end.
    apply is_nibbles_app in Hk as [_ Hrb].
    destruct ra as [|c0 cs].
    + destruct (IH Wc rb v Hrb Hv) as [Wu Bu]. apply wf_pre; auto.
    + apply nibble_lt in Hra as [Hc0 Hcs].
      destruct (wf_fork c0 (ext_opt cs ch) rb v) as [Wf Bf]; auto; [lia|apply wf_ext_opt; auto|].
      apply wf_pre; auto.
  - destruct key as [|k0 ks].
    + cbn [tupd]. split; [|auto]. constructor; auto. unfold entries in *. rewrite (nonempty_neq v Hv).
      destruct (nonempty val); simpl in *; lia.
    + rewrite tupd_branch. split; [|exact (fun x => x)]. apply nibble_lt in Hk as [Hk0 Hks].
      assert (Hi : N.to_nat k0 < length cs) by lia.
      constructor.
      * rewrite set_nth_length. auto.
      * intros c Hin. apply set_nth_In in Hin as [E|Hin]; auto. injection E as ->.
        pose proof (nth_owf cs (N.to_nat k0) Wcs) as Ho. pose proof (nth_In cs None Hi) as Hin.
        destruct (nth (N.to_nat k0) cs None) as [c|]; cbn [oupd].
        -- apply IH; auto.
        -- constructor; auto.
      * unfold entries in *.
        pose proof (cnt_set_nth is_some (N.to_nat k0) (Some (oupd (nth (N.to_nat k0) cs None) ks v)) None cs Hi) as C.
        cbn [is_some Nat.b2n] in C. destruct (is_some (nth (N.to_nat k0) cs None)); cbn [Nat.b2n] in C; lia.
Qed.

Lemma oget_oupd o key v key' : owf o -> is_nibbles key -> is_nibbles key' ->
  tget (oupd o key v) key' = if bytes_eqb key' key then v else oget o key'.
Proof. destruct o; simpl; intros; [apply tget_tupd; auto|reflexivity]. Qed.
Lemma wf_oupd o key v : owf o -> is_nibbles key -> v <> [] -> wf (oupd o key v).
Proof. destruct o; simpl; intros; [apply wf_tupd; auto|constructor; auto]. Qed.

(** ** Deletion *)
Definition prefix_key (pk : nibbles) (t : tnode) : tnode :=
  match t with
  | TLeaf k v => TLeaf (pk ++ k) v
  | TExt k c => TExt (pk ++ k) c
  | TBranch _ _ => TExt pk t
  end.
Fixpoint first_some {A} (l : list (option A)) : nat :=
  match l with [] => 0 | Some _ :: _ => 0 | None :: l' => S (first_some l') end.
Definition tnorm (cs : list (option tnode)) (v : bytes) : option tnode :=
  if 1 <? entries cs v then Some (TBranch cs v)
  else if nonempty v then Some (TLeaf [] v)
  else match nth (first_some cs) cs None with
       | Some c => Some (prefix_key [N.of_nat (first_some cs)] c)
       | None => None
       end.

Fixpoint tdel (t : tnode) (key : nibbles) : option tnode :=
  match t with
  | TLeaf k v => if bytes_eqb key k then None else Some t
  | TExt k c =>
    if starts_with key k then
      match tdel c (skipn (length k) key) with
      | None => None
      | Some c' => Some (prefix_key k c')
      end
    else Some t
  | TBranch cs v =>
    match key with
    | [] => tnorm cs []
    | k0 :: ks =>
      let o' := (fix go cs i := match cs, i with
                      | [], _ => None
                      | o :: _, 0 => match o with Some c => tdel c ks | None => None end
                      | _ :: cs', S i' => go cs' i'
                      end) cs (N.to_nat k0) in
      let cs' := set_nth (N.to_nat k0) o' cs in
      match o' with None => tnorm cs' v | Some _ => Some (TBranch cs' v) end
    end
  end.
Definition odel (o : option tnode) (key : nibbles) : option tnode :=
  match o with Some t => tdel t key | None => None end.

Lemma tdel_branch cs v k0 ks : tdel (TBranch cs v) (k0 :: ks) =
  let o' := odel (nth (N.to_nat k0) cs None) ks in
  let cs' := set_nth (N.to_nat k0) o' cs in
  match o' with None => tnorm cs' v | Some _ => Some (TBranch cs' v) end.
Proof.
  cbn [tdel].
  assert (E : forall cs i, (fix go cs i := match cs, i with
                      | [], _ => None
                      | o :: _, 0 => match o with Some c => tdel c ks | None => None end
                      | _ :: cs', S i' => go cs' i'
                      end) cs i = odel (nth i cs None) ks).
  { clear. induction cs as [|o cs IH]; intros [|i]; auto. cbn [nth]. apply IH. }
  rewrite E. reflexivity.
Qed.

Lemma tget_prefix_key pk t key : tget (prefix_key pk t) key
  = if starts_with key pk then tget t (skipn (length pk) key) else [].
Proof.
  destruct t as [k v|k c|cs v]; cbn [prefix_key]; [| |apply tget_ext].
  - rewrite tget_leaf. destruct (starts_with key pk) eqn:E.
    + apply starts_with_spec in E as [r ->]. rewrite skipn_app_exact, bytes_eqb_app. reflexivity.
    + rewrite bytes_eqb_neq; auto. intros ->. rewrite starts_with_app in E. discriminate.
  - rewrite tget_ext. destruct (starts_with key pk) eqn:E.
    + apply starts_with_spec in E as [r ->]. rewrite skipn_app_exact, starts_with_app_both, tget_ext.
      rewrite app_length, <- skipn_skipn, skipn_app_exact. reflexivity.
    + rewrite starts_with_trans_false by auto. reflexivity.
Qed.

Lemma wf_prefix_key pk t : is_nibbles pk -> pk <> [] -> wf t -> wf (prefix_key pk t).
Proof.
  intros Hp Hn W. inversion W; subst; cbn [prefix_key].
  - constructor; auto. apply is_nibbles_app; auto.
  - constructor; auto; [apply is_nibbles_app; auto|]. destruct pk; [congruence|discriminate].
  - constructor; auto. exact I.
Qed.

Lemma first_some_spec {A} (l : list (option A)) : cnt is_some l = 1 ->
  exists c, nth (first_some l) l None = Some c /\ first_some l < length l /\
    forall j, j <> first_some l -> nth j l None = None.
Proof.
  induction l as [|[c|] l IH]; [discriminate| |]; rewrite cnt_cons; cbn [is_some Nat.b2n]; intros E.
  - exists c. cbn [first_some nth length]. split; [auto|]. split; [lia|]. intros [|j] Hj; [congruence|]. cbn [nth].
    assert (E0 : cnt is_some l = 0) by lia. clear -E0. revert j.
    induction l as [|[c|] l IH]; intros [|j]; auto; rewrite cnt_cons in E0; cbn [is_some Nat.b2n] in E0; try lia.
    apply IH. lia.
  - destruct (IH E) as (c & E1 & E2 & E3). exists c. cbn [first_some nth length]. split; [auto|]. split; [lia|].
    intros [|j] Hj; [reflexivity|]. apply (E3 j). congruence.
Qed.
Lemma cnt_zero_nth {A} (l : list (option A)) : cnt is_some l = 0 -> forall j, nth j l None = None.
Proof.
  induction l as [|[c|] l IH]; intros E [|j]; auto; rewrite cnt_cons in E; cbn [is_some Nat.b2n] in E; try lia.
  apply IH. lia.
Qed.

Lemma tnorm_spec cs v : length cs = 16 -> (forall c, In (Some c) cs -> wf c) -> 1 <= entries cs v ->
  exists t, tnorm cs v = Some t /\ wf t /\ forall key, is_nibbles key -> tget t key = tget (TBranch cs v) key.
Proof.
  intros L Hc He. unfold tnorm. destruct (Nat.ltb_spec 1 (entries cs v)) as [H1|H1].
  - exists (TBranch cs v). split; auto. split; [constructor; auto|auto].
  - unfold entries in *. destruct (nonempty v) eqn:Ev; cbn [Nat.b2n] in *.
    + exists (TLeaf [] v). split; auto. split; [constructor; [constructor|destruct v; discriminate]|].
      intros [|k0 ks] _; [reflexivity|]. rewrite tget_leaf, bytes_eqb_neq, tget_branch by discriminate.
      rewrite cnt_zero_nth by lia. reflexivity.
    + assert (v = []) as -> by (destruct v; [auto|discriminate]).
      destruct (first_some_spec cs) as (c & E1 & E2 & E3); [lia|]. rewrite E1.
      exists (prefix_key [N.of_nat (first_some cs)] c). split; auto.
      assert (Wc : wf c) by (apply Hc; rewrite <- E1; apply nth_In; auto).
      split; [apply wf_prefix_key; auto; [repeat constructor; lia|discriminate]|].
      intros key Hk. rewrite tget_prefix_key. destruct key as [|k0 ks].
      * destruct (starts_with [] [N.of_nat (first_some cs)]) eqn:E; [|reflexivity].
        apply starts_with_spec in E as [r E]. discriminate.
      * rewrite tget_branch. destruct (Nat.eq_dec (N.to_nat k0) (first_some cs)) as [E|E].
        -- assert (k0 = N.of_nat (first_some cs)) as -> by lia.
           change (N.of_nat (first_some cs) :: ks) with ([N.of_nat (first_some cs)] ++ ks).
           rewrite starts_with_app, skipn_app_exact, Nat2N.id, E1. reflexivity.
        -- rewrite (E3 _ E). destruct (starts_with (k0 :: ks) [N.of_nat (first_some cs)]) eqn:Es; [|reflexivity].
           apply starts_with_spec in Es as [r Es]. injection Es as -> _. lia.
Qed.

Theorem tdel_spec t : wf t -> forall key, is_nibbles key ->
  owf (tdel t key) /\ (is_branch t -> tdel t key <> None) /\
  forall key', is_nibbles key' -> oget (tdel t key) key' = if bytes_eqb key' key then [] else tget t key'.
Proof.
  induction t as [ck val|ck ch IH|cs val IH] using tnode_ind'; intros W key Hk; inversion W as [? ? Wk Wv|? ? Wk Wn Wb Wc|? ? Wl Wcs We]; subst.
  - split; [cbn [tdel]; destruct (bytes_eqb key ck); simpl; auto|]. split; [intros []|].
    intros key' Hk'. cbn [tdel]. destruct (bytes_eqb key ck) eqn:E.
    + apply bytes_eqb_eq in E as ->. cbn [oget]. rewrite tget_leaf. destruct (bytes_eqb key' ck); reflexivity.
    + cbn [oget]. rewrite tget_leaf. destruct (bytes_eqb key' key) eqn:E2; auto.
      apply bytes_eqb_eq in E2 as ->. rewrite E. reflexivity.
  - cbn [tdel]. destruct (starts_with key ck) eqn:Es.
    + apply starts_with_spec in Es as [r ->]. apply is_nibbles_app in Hk as [_ Hr].
      rewrite skipn_app_exact. destruct (IH Wc r Hr) as (Wo & Nn & G).
      destruct (tdel ch r) as [c'|] eqn:Ed; [|destruct (Nn Wb eq_refl)].
      split; [simpl; apply wf_prefix_key; auto|]. split; [intros []|].
      intros key' Hk'. cbn [oget]. rewrite tget_prefix_key, tget_ext.
      destruct (starts_with key' ck) eqn:Es.
      * apply starts_with_spec in Es as [r' ->]. apply is_nibbles_app in Hk' as [_ Hr'].
        rewrite skipn_app_exact, bytes_eqb_app. apply G. auto.
      * rewrite bytes_eqb_neq; auto. intros ->. rewrite starts_with_app in Es. discriminate.
    + split; auto. split; [intros []|]. intros key' Hk'. cbn [oget].
      destruct (bytes_eqb key' key) eqn:E; auto. apply bytes_eqb_eq in E as ->.
      rewrite tget_ext, Es. reflexivity.
  - destruct key as [|k0 ks].
    + cbn [tdel]. destruct (tnorm_spec cs []) as (t & E & Wt & G); auto.
      { unfold entries in *. destruct (nonempty val); cbn [Nat.b2n nonempty] in *; lia. }
      rewrite E. split; auto. split; [discriminate|]. intros key' Hk'. cbn [oget]. rewrite G by auto.
      destruct key' as [|x key']; [reflexivity|]. rewrite bytes_eqb_neq by discriminate. rewrite !tget_branch. reflexivity.
    + rewrite tdel_branch. cbn zeta. apply nibble_lt in Hk as [Hk0 Hks].
      assert (Hi : N.to_nat k0 < length cs) by lia.
      pose proof (nth_owf cs (N.to_nat k0) Wcs) as Ho. pose proof (nth_In cs None Hi) as Hin.
      set (o := nth (N.to_nat k0) cs None) in *.
      assert (Hod : owf (odel o ks) /\ forall key', is_nibbles key' ->
                 oget (odel o ks) key' = if bytes_eqb key' ks then [] else oget o key').
      { destruct o as [c|]; cbn [odel owf oget] in *.
        - destruct (IH c Hin Ho ks Hks) as (A & _ & B). auto.
        - split; auto. intros key' _. destruct (bytes_eqb key' ks); reflexivity. }
      destruct Hod as [Wd G].
      assert (GB : forall key', is_nibbles key' ->
        tget (TBranch (set_nth (N.to_nat k0) (odel o ks) cs) val) key'
        = if bytes_eqb key' (k0 :: ks) then [] else tget (TBranch cs val) key').
      { intros [|k0' ks'] Hk'; [rewrite bytes_eqb_neq by discriminate; reflexivity|].
        apply nibble_lt in Hk' as [Hk0' Hks'].
        rewrite !tget_branch, nth_set_nth by lia. rewrite to_nat_eqb. destruct (N.eqb_spec k0' k0) as [->|N].
        - change (k0 :: ks') with ([k0] ++ ks'). change (k0 :: ks) with ([k0] ++ ks). rewrite bytes_eqb_app.
          rewrite G by auto. reflexivity.
        - rewrite bytes_eqb_neq by congruence. reflexivity. }
      assert (Hc' : forall c, In (Some c) (set_nth (N.to_nat k0) (odel o ks) cs) -> wf c).
      { intros c Hc. apply set_nth_In in Hc as [E|Hc]; auto. rewrite <- E in Wd. exact Wd. }
      pose proof (cnt_set_nth is_some (N.to_nat k0) (odel o ks) None cs Hi) as C. fold o in C.
      destruct (odel o ks) as [c'|] eqn:Ed.
      * split.
        { constructor; [rewrite set_nth_length; auto|auto|]. unfold entries in *. cbn [is_some Nat.b2n] in C.
          destruct (is_some o); cbn [Nat.b2n] in C; lia. }
        split; [discriminate|]. exact GB.
      * destruct (tnorm_spec (set_nth (N.to_nat k0) None cs) val) as (t & E & Wt & Gt); auto.
        { rewrite set_nth_length. auto. }
        { unfold entries in *. cbn [is_some Nat.b2n] in C. destruct (is_some o); cbn [Nat.b2n] in C; lia. }
        rewrite E. split; auto. split; [discriminate|]. intros key' Hk'. cbn [oget]. rewrite Gt by auto. apply GB. auto.
Qed.

(** ** A well-formed trie is determined by its content *)
Lemma wf_nonempty t : wf t -> exists key, is_nibbles key /\ tget t key <> [].
Proof.
  induction t as [ck val|ck ch IH|cs val IH] using tnode_ind'; intros W; inversion W as [? ? Wk Wv|? ? Wk Wn Wb Wc|? ? Wl Wcs We]; subst.
  - exists ck. rewrite tget_leaf, bytes_eqb_refl. auto.
  - destruct (IH Wc) as (k & Hk & G). exists (ck ++ k). split; [apply is_nibbles_app; auto|].
    rewrite tget_ext, starts_with_app, skipn_app_exact. exact G.
  - unfold entries in *. destruct (nonempty val) eqn:Ev.
    + exists []. split; [constructor|]. rewrite tget_branch_nil. destruct val; [discriminate|congruence].
    + cbn [Nat.b2n] in *. assert (exists i c, i < 16 /\ nth i cs None = Some c) as (i & c & Hi & Ei).
      {
        assert (G : forall l : list (option tnode), 0 < cnt is_some l -> exists i c, i < length l /\ nth i l None = Some c).
        { induction l as [|[c|] l IHl]; intros C; [unfold cnt in C; simpl in C; lia| |].
          - exists 0, c. split; [simpl; lia|auto].
          - rewrite cnt_cons in C. destruct (IHl C) as (i & c & Hi & Ei). exists (S i), c. split; [simpl; lia|auto]. }
        destruct (G cs) as (i & c & Hi & Ei); [lia|]. exists i, c. split; [lia|auto]. }
      assert (Hin : In (Some c) cs) by (rewrite <- Ei; apply nth_In; lia).
      destruct (IH c Hin (Wcs c Hin)) as (k & Hk & G). exists (N.of_nat i :: k).
      split; [constructor; [lia|auto]|]. rewrite tget_branch, Nat2N.id, Ei. exact G.
Qed.

(** A branch holds two keys that do not share their first nibble. *)
Lemma branch_two cs v : wf (TBranch cs v) -> exists k1 k2, is_nibbles k1 /\ is_nibbles k2 /\
  tget (TBranch cs v) k1 <> [] /\ tget (TBranch cs v) k2 <> [] /\
  match k1, k2 with [], _ :: _ => True | x :: _, y :: _ => x <> y | _, _ => False end.
Proof.
  intros W. inversion W as [| |? ? L Hc He]; subst.
  assert (Child : forall i c, i < 16 -> nth i cs None = Some c ->
      exists k, is_nibbles (N.of_nat i :: k) /\ tget (TBranch cs v) (N.of_nat i :: k) <> []).
  { intros i c Hi Ei. assert (Hin : In (Some c) cs) by (rewrite <- Ei; apply nth_In; lia).
    destruct (wf_nonempty c (Hc c Hin)) as (k & Hk & G). exists k. split; [constructor; [lia|auto]|].
    rewrite tget_branch, Nat2N.id, Ei. exact G. }
  assert (Two : forall l : list (option tnode), 2 <= cnt is_some l -> exists i j c d,
      i < j < length l /\ nth i l None = Some c /\ nth j l None = Some d).
  { clear. assert (One : forall l : list (option tnode), 1 <= cnt is_some l -> exists i c, i < length l /\ nth i l None = Some c).
    { induction l as [|[c|] l IHl]; intros C; [unfold cnt in C; simpl in C; lia| |].
      - exists 0, c. split; [simpl; lia|auto].
      - rewrite cnt_cons in C. destruct (IHl C) as (i & c & Hi & Ei). exists (S i), c. split; [simpl; lia|auto]. }
    induction l as [|[c|] l IHl]; intros C; [unfold cnt in C; simpl in C; lia| |]; rewrite cnt_cons in C; cbn [is_some Nat.b2n] in C.
    - destruct (One l) as (j & d & Hj & Ej); [lia|]. exists 0, (S j), c, d. split; [simpl; lia|auto].
    - destruct (IHl C) as (i & j & c & d & Hij & Ei & Ej). exists (S i), (S j), c, d. split; [simpl; lia|auto]. }
  unfold entries in He. destruct (nonempty v) eqn:Ev; cbn [Nat.b2n] in He.
  - assert (One : exists i c, i < 16 /\ nth i cs None = Some c).
    { rewrite <- L. clear -He. assert (He' : 1 <= cnt is_some cs) by lia. clear He.
      induction cs as [|[c|] l IHl]; [unfold cnt in He'; simpl in He'; lia| |].
      - exists 0, c. split; [simpl; lia|auto].
      - rewrite cnt_cons in He'. destruct (IHl He') as (i & c & Hi & Ei). exists (S i), c. split; [simpl; lia|auto]. }
    destruct One as (i & c & Hi & Ei). destruct (Child i c Hi Ei) as (k & Hk & G).
    exists [], (N.of_nat i :: k). split; [constructor|]. split; auto. split; [rewrite tget_branch_nil; destruct v; [discriminate|congruence]|auto].
  - destruct (Two cs) as (i & j & c & d & Hij & Ei & Ej); [lia|].
    destruct (Child i c) as (k & Hk & G); [lia|auto|]. destruct (Child j d) as (k' & Hk' & G'); [lia|auto|].
    exists (N.of_nat i :: k), (N.of_nat j :: k'). repeat (split; [assumption|]). lia.
Qed.

Lemma ext_support k c key : tget (TExt k c) key <> [] -> exists r, key = k ++ r /\ tget c r <> [].
Proof.
  rewrite tget_ext. destruct (starts_with key k) eqn:E; [|congruence].
  apply starts_with_spec in E as [r ->]. rewrite skipn_app_exact. eauto.
Qed.
Lemma leaf_support k v key : tget (TLeaf k v) key <> [] -> key = k.
Proof. rewrite tget_leaf. destruct (bytes_eqb key k) eqn:E; [|congruence]. apply bytes_eqb_eq in E. auto. Qed.

Definition same_content (a b : tnode) : Prop := forall key, is_nibbles key -> tget a key = tget b key.

Lemma leaf_not_many k v t : wf t -> (forall key, is_nibbles key -> tget (TLeaf k v) key = tget t key) ->
  match t with TLeaf _ _ => True | _ => False end.
Proof.
  intros W E. destruct t as [k' v'|k' c|cs v']; auto.
  - inversion W as [|? ? Hk Hne Hb Wc|]; subst. destruct c as [| |cs v']; try destruct Hb.
    destruct (branch_two cs v' Wc) as (k1 & k2 & N1 & N2 & G1 & G2 & D).
    assert (A : forall r, is_nibbles r -> tget (TBranch cs v') r <> [] -> k' ++ r = k).
    { intros r Hr G. apply (leaf_support k v). rewrite E by (apply is_nibbles_app; auto).
      rewrite tget_ext, starts_with_app, skipn_app_exact. exact G. }
    assert (k1 = k2) by (apply (app_inv_head k'); rewrite (A k1), (A k2); auto).
    subst k2. destruct k1; [exact D|congruence].
  - destruct (branch_two cs v' W) as (k1 & k2 & N1 & N2 & G1 & G2 & D).
    assert (k1 = k /\ k2 = k) as [-> ->].
    { split; apply (leaf_support k v); rewrite E; auto. }
    destruct k; [exact D|congruence].
Qed.

Lemma ext_not_branch k c cs v : wf (TExt k c) -> wf (TBranch cs v) ->
  (forall key, is_nibbles key -> tget (TExt k c) key = tget (TBranch cs v) key) -> False.
Proof.
  intros We Wb E. inversion We as [|? ? Hk Hne Hb Wc|]; subst.
  destruct (branch_two cs v Wb) as (k1 & k2 & N1 & N2 & G1 & G2 & D).
  rewrite <- E in G1, G2 by auto. apply ext_support in G1 as (r1 & -> & _). apply ext_support in G2 as (r2 & -> & _).
  destruct k as [|x k]; [congruence|]. simpl in D. congruence.
Qed.

Theorem canonical t1 : forall t2, wf t1 -> wf t2 -> same_content t1 t2 -> t1 = t2.
Proof.
  induction t1 as [k1 v1|k1 c1 IH|cs1 v1 IH] using tnode_ind'; intros t2 W1 W2 E; unfold same_content in E.
  - pose proof (leaf_not_many k1 v1 t2 W2 E) as M. destruct t2 as [k2 v2| |]; try destruct M.
    inversion W1; inversion W2; subst.
    assert (Hk : k1 = k2).
    { apply (leaf_support k2 v2). rewrite <- E by auto. rewrite tget_leaf, bytes_eqb_refl. auto. }
    subst k2. f_equal. specialize (E k1 H1). rewrite !tget_leaf, bytes_eqb_refl in E. exact E.
  - destruct t2 as [k2 v2|k2 c2|cs2 v2].
    + assert (E' : forall key, is_nibbles key -> tget (TLeaf k2 v2) key = tget (TExt k1 c1) key) by (intros; symmetry; auto).
      destruct (leaf_not_many k2 v2 _ W1 E').
    + inversion W1 as [|? ? Hk1 Hn1 Hb1 Wc1|]; inversion W2 as [|? ? Hk2 Hn2 Hb2 Wc2|]; subst.
      assert (Hk : k1 = k2).
      { destruct (lcp_spec k1 k2) as (p & ra & rb & E1 & E2 & _ & D).
        assert (Hlong : forall ka kb ca cb r, (forall key, is_nibbles key -> tget (TExt ka ca) key = tget (TExt kb cb) key) ->
            wf ca -> is_branch ca -> is_nibbles ka -> kb = ka ++ r -> r = []).
        { clear. intros ka kb ca cb r E Wc Hb Hn ->. destruct r as [|x r]; auto. exfalso.
          destruct ca as [| |cs v]; try destruct Hb.
          destruct (branch_two cs v Wc) as (k1 & k2 & N1 & N2 & G1 & G2 & D).
          assert (A : forall q, is_nibbles q -> tget (TBranch cs v) q <> [] -> exists q', q = (x :: r) ++ q').
          { intros q Hq G. assert (G' : tget (TExt (ka ++ x :: r) cb) (ka ++ q) <> []).
            { rewrite <- E by (apply is_nibbles_app; auto). rewrite tget_ext, starts_with_app, skipn_app_exact. exact G. }
            apply ext_support in G' as (q' & E' & _). rewrite <- app_assoc in E'. apply app_inv_head in E'. eauto. }
          destruct (A k1 N1 G1) as [q1 ->], (A k2 N2 G2) as [q2 ->]. simpl in D. congruence. }
        destruct ra as [|x ra].
        - rewrite app_nil_r in E1. subst p. assert (rb = []) as -> by (eapply Hlong with (ka := k1); eauto).
          rewrite app_nil_r in E2. auto.
        - destruct rb as [|y rb].
          + rewrite app_nil_r in E2. subst p.
            assert (x :: ra = []) by (eapply (Hlong k2 k1 c2 c1); eauto; intros; symmetry; auto). discriminate.
          + destruct (wf_nonempty c1 Wc1) as (q & Hq & G).
            assert (G' : tget (TExt k2 c2) (k1 ++ q) <> []).
            { rewrite <- E by (apply is_nibbles_app; auto). rewrite tget_ext, starts_with_app, skipn_app_exact. exact G. }
            apply ext_support in G' as (q' & E' & _). rewrite E1, E2, <- !app_assoc in E'.
            apply app_inv_head in E'. injection E'. congruence. }
      subst k2. f_equal. apply IH; auto. intros key Hkey.
      specialize (E (k1 ++ key)). rewrite !tget_ext, starts_with_app, skipn_app_exact in E.
      apply E. apply is_nibbles_app; auto.
    + destruct (ext_not_branch k1 c1 cs2 v2 W1 W2 E).
  - destruct t2 as [k2 v2|k2 c2|cs2 v2].
    + assert (E' : forall key, is_nibbles key -> tget (TLeaf k2 v2) key = tget (TBranch cs1 v1) key) by (intros; symmetry; auto).
      destruct (leaf_not_many k2 v2 _ W1 E').
    + destruct (ext_not_branch k2 c2 cs1 v1 W2 W1). intros; symmetry; auto.
    + inversion W1 as [| |? ? L1 Hc1 He1]; inversion W2 as [| |? ? L2 Hc2 He2]; subst.
      assert (v1 = v2) as -> by (apply (E []); constructor).
      f_equal. apply (nth_ext _ _ None None); [congruence|]. intros i Hi.
      pose proof (nth_owf cs1 i Hc1) as O1. pose proof (nth_owf cs2 i Hc2) as O2.
      assert (G : forall key, is_nibbles key -> oget (nth i cs1 None) key = oget (nth i cs2 None) key).
      { intros key Hk. specialize (E (N.of_nat i :: key)). rewrite !tget_branch, Nat2N.id in E.
        apply E. constructor; [lia|auto]. }
      pose proof (nth_In cs1 None Hi) as Hin.
      destruct (nth i cs1 None) as [c1|], (nth i cs2 None) as [c2|]; cbn [oget owf] in *; auto.
      * f_equal. apply IH; auto.
      * destruct (wf_nonempty c1 O1) as (k & Hk & G1). rewrite G in G1 by auto. congruence.
      * destruct (wf_nonempty c2 O2) as (k & Hk & G1). rewrite <- G in G1 by auto. congruence.
Qed.

Theorem ocanonical o1 o2 : owf o1 -> owf o2 ->
  (forall key, is_nibbles key -> oget o1 key = oget o2 key) -> o1 = o2.
Proof.
  destruct o1 as [t1|], o2 as [t2|]; cbn [owf oget]; intros W1 W2 E; auto.
  - f_equal. apply canonical; auto.
  - destruct (wf_nonempty t1 W1) as (k & Hk & G). rewrite E in G by auto. congruence.
  - destruct (wf_nonempty t2 W2) as (k & Hk & G). rewrite <- E in G by auto. congruence.
Qed.
