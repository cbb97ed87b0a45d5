(** Python dicts with number keys, as association lists in order of insertion, and their laws. *)
From Coq Require Import List Arith Bool Lia.
Import ListNotations.

Definition dict (V : Type) := list (nat * V).
Fixpoint get {V} (k : nat) (d : dict V) : option V :=
  match d with [] => None | (k', v) :: d' => if k =? k' then Some v else get k d' end.
(** assignment: a new key goes to the end, an old one keeps its place *)
Fixpoint set {V} (k : nat) (v : V) (d : dict V) : dict V :=
  match d with [] => [(k, v)] | (k', v') :: d' => if k =? k' then (k, v) :: d' else (k', v') :: set k v d' end.
Definition del {V} (k : nat) (d : dict V) : dict V := filter (fun x => negb (fst x =? k)) d.
(** [d.get(k, v)] *)
Definition get_or {V} (k : nat) (v : V) (d : dict V) : V := match get k d with Some x => x | None => v end.
(** [set.add]: sets as lists without repetition *)
Definition add (x : nat) (l : list nat) : list nat := if existsb (Nat.eqb x) l then l else l ++ [x].

Lemma get_set {V} k (v : V) d k' : get k' (set k v d) = if k' =? k then Some v else get k' d.
Proof.
  induction d as [|(k0, v0) d IH]; simpl; [reflexivity|].
  destruct (Nat.eqb_spec k k0) as [<-|N]; simpl; [destruct (k' =? k); reflexivity|].
  rewrite IH. destruct (Nat.eqb_spec k' k0) as [->|N']; [|reflexivity]. destruct (Nat.eqb_spec k0 k); congruence.
Qed.
Lemma get_filter {V} (f : nat -> bool) (d : dict V) k : get k (filter (fun x => f (fst x)) d) = if f k then get k d else None.
Proof.
  induction d as [|(k0, v0) d IH]; simpl; [destruct (f k); reflexivity|].
  destruct (f k0) eqn:F; simpl; rewrite IH; destruct (Nat.eqb_spec k k0) as [->|N]; rewrite ?F; reflexivity.
Qed.
Lemma get_del {V} k (d : dict V) k' : get k' (del k d) = if k' =? k then None else get k' d.
Proof. unfold del. rewrite (get_filter (fun x => negb (x =? k))). destruct (k' =? k); reflexivity. Qed.
Lemma get_in {V} k (d : dict V) v : get k d = Some v -> In (k, v) d.
Proof. induction d as [|(k0, v0) d IH]; simpl; [discriminate|]. destruct (Nat.eqb_spec k k0) as [->|N]; [intros E; injection E as ->; auto|auto]. Qed.
Lemma in_get {V} k (d : dict V) v : NoDup (map fst d) -> In (k, v) d -> get k d = Some v.
Proof.
  induction d as [|(k0, v0) d IH]; simpl; intros N I0; [destruct I0|]. inversion N as [|? ? N1 N2]; subst. destruct I0 as [E|I].
  - injection E as -> ->. rewrite Nat.eqb_refl. reflexivity.
  - destruct (Nat.eqb_spec k k0) as [->|Ne]; [|auto]. exfalso. apply N1. apply (in_map fst) in I. exact I.
Qed.
Lemma get_none {V} k (d : dict V) : get k d = None <-> ~ In k (map fst d).
Proof.
  induction d as [|(k0, v0) d IH]; simpl; [tauto|]. destruct (Nat.eqb_spec k k0) as [->|N]; [split; [discriminate|intuition]|].
  rewrite IH. intuition congruence.
Qed.
Lemma nodup_filter {V} (f : nat * V -> bool) (d : dict V) : NoDup (map fst d) -> NoDup (map fst (filter f d)).
Proof.
  induction d as [|x d IH]; simpl; intros N; [apply NoDup_nil|]. inversion N as [|? ? N1 N2]; subst. destruct (f x); simpl; [|auto].
  apply NoDup_cons; [|auto]. intros I. apply N1. apply in_map_iff in I as (y & <- & Y). apply in_map. apply filter_In in Y. tauto.
Qed.
Lemma nodup_set {V} k (v : V) d : NoDup (map fst d) -> NoDup (map fst (set k v d)).
Proof.
  induction d as [|(k0, v0) d IH]; simpl; intros N; [apply NoDup_cons; [auto|apply NoDup_nil]|]. inversion N as [|? ? N1 N2]; subst.
  destruct (Nat.eqb_spec k k0) as [->|Ne]; simpl; [apply NoDup_cons; assumption|]. apply NoDup_cons; [|auto].
  rewrite <- get_none, get_set in *. destruct (Nat.eqb_spec k0 k); [congruence|exact N1].
Qed.
Lemma set_new {V} k (v : V) d : get k d = None -> set k v d = d ++ [(k, v)].
Proof.
  induction d as [|(k0, v0) d IH]; simpl; [reflexivity|]. destruct (Nat.eqb_spec k k0); [discriminate|]. intros G. rewrite IH by exact G. reflexivity.
Qed.

(** *** caches without empty views, with distinct voters *)

Lemma set_keys {V} k (v : V) d x : In x (map fst (set k v d)) <-> x = k \/ In x (map fst d).
Proof.
  induction d as [|(k0, v0) d IH]; simpl; [intuition congruence|]. destruct (Nat.eqb_spec k k0) as [->|N]; simpl; [intuition congruence|]. rewrite IH. tauto.
Qed.
Lemma in_set {V} k (v : V) d x w : In (x, w) (set k v d) -> (x = k /\ w = v) \/ In (x, w) d.
Proof.
  induction d as [|(k0, v0) d IH]; simpl; [intros [E|[]]; injection E as -> ->; auto|]. destruct (Nat.eqb_spec k k0) as [->|N]; simpl.
  - intros [E|I]; [injection E as -> ->; auto|auto].
  - intros [E|I]; [auto|]. destruct (IH I); auto.
Qed.
Lemma mem_in x l : existsb (Nat.eqb x) l = true <-> In x l.
Proof.
  rewrite existsb_exists. split; [intros (y & I & E); apply Nat.eqb_eq in E; congruence|intros I; exists x; split; [exact I|apply Nat.eqb_refl]].
Qed.
Lemma add_in x l y : In y (add x l) <-> y = x \/ In y l.
Proof.
  unfold add. destruct (existsb (Nat.eqb x) l) eqn:E; [apply mem_in in E|rewrite in_app_iff; simpl]; intuition congruence.
Qed.
Lemma add_nodup x l : NoDup l -> NoDup (add x l).
Proof.
  intros N. unfold add. destruct (existsb (Nat.eqb x) l) eqn:E; [exact N|].
  assert (F : ~ In x l) by (intros I; apply mem_in in I; congruence). clear E.
  induction l as [|a l IH]; simpl; [apply NoDup_cons; [auto|apply NoDup_nil]|]. inversion N as [|? ? N1 N2]; subst.
  apply NoDup_cons; [rewrite in_app_iff; simpl; intros [I|[->|[]]]; [auto|apply F; left; reflexivity]|].
  apply IH; [exact N2|intros I; apply F; right; exact I].
Qed.
