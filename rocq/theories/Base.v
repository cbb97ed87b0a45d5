(** Shared vocabulary: byte strings, slices, small list facts. *)
From Coq Require Import List Arith NArith ZArith Lia Bool.
Import ListNotations.

(** Python [bytes]; every element is meant to be below 256, which no theorem needs
    unless it says so. *)
Definition bytes := list N.

Definition bytes_eq_dec : forall a b : bytes, {a = b} + {a <> b} := list_eq_dec N.eq_dec.
Definition bytes_eqb (a b : bytes) : bool := if bytes_eq_dec a b then true else false.

Lemma bytes_eqb_eq a b : bytes_eqb a b = true <-> a = b.
Proof. unfold bytes_eqb. destruct (bytes_eq_dec a b); split; congruence. Qed.

(** [slice l a b] is Python's [l[a:b]] for [0 <= a <= b]. *)
Definition slice {A} (l : list A) (a b : nat) : list A := firstn (b - a) (skipn a l).

Lemma slice_length {A} (l : list A) a b :
  b <= length l -> length (slice l a b) = b - a.
Proof. intros. unfold slice. rewrite firstn_length, skipn_length. lia. Qed.

Lemma slice_all {A} (l : list A) : slice l 0 (length l) = l.
Proof. unfold slice. rewrite Nat.sub_0_r. simpl. apply firstn_all. Qed.

Lemma skipn_skipn {A} (x y : nat) (l : list A) : skipn x (skipn y l) = skipn (y + x) l.
Proof.
  revert y. induction l as [|a l IH]; intros y.
  - rewrite !skipn_nil. reflexivity.
  - destruct y; simpl; auto.
Qed.

Lemma slice_split {A} (l : list A) a b c :
  a <= b -> b <= c -> slice l a c = slice l a b ++ slice l b c.
Proof.
  intros H1 H2. unfold slice.
  rewrite <- (firstn_skipn (b - a) (firstn (c - a) (skipn a l))).
  f_equal.
  - rewrite firstn_firstn. f_equal. lia.
  - rewrite skipn_firstn_comm, skipn_skipn.
    f_equal; [lia | f_equal; lia].
Qed.

Lemma slice_app_l {A} (l l' : list A) a b :
  b <= length l -> slice (l ++ l') a b = slice l a b.
Proof.
  intros. unfold slice. destruct (le_lt_dec a (length l)).
  - rewrite skipn_app. replace (a - length l) with 0 by lia. simpl.
    rewrite firstn_app, skipn_length. replace (b - a - (length l - a)) with 0 by lia.
    simpl. apply app_nil_r.
  - replace (b - a) with 0 by lia. reflexivity.
Qed.

Lemma slice_one {A} (l : list A) a x :
  nth_error l a = Some x -> slice l a (S a) = [x].
Proof.
  intros H. unfold slice. replace (S a - a) with 1 by lia.
  apply nth_error_split in H. destruct H as (l1 & l2 & -> & <-).
  rewrite skipn_app, skipn_all, Nat.sub_diag. reflexivity.
Qed.

Lemma firstn_slice {A} (l : list A) n : firstn n l = slice l 0 n.
Proof. unfold slice. rewrite Nat.sub_0_r. reflexivity. Qed.

Lemma nth_error_app_l {A} (l l' : list A) i :
  i < length l -> nth_error (l ++ l') i = nth_error l i.
Proof. apply nth_error_app1. Qed.

Lemma list_snoc {A} (l : list A) : l <> [] -> exists l' x, l = l' ++ [x].
Proof. intros H. destruct (exists_last H) as (l' & x & ->). eauto. Qed.

Definition list_snoc_sig {A} (l : list A) : l <> [] -> {l' : list A & {x | l = l' ++ [x]}}.
Proof. intros H. destruct (exists_last H) as (l' & x & ->). eauto. Qed.

Lemma app_inv_length_l {A} (a b c d : list A) :
  length a = length c -> a ++ b = c ++ d -> a = c /\ b = d.
Proof.
  revert c. induction a as [|x a IH]; intros [|y c]; simpl; intros L E; try discriminate; auto.
  injection E as -> E. destruct (IH c ltac:(lia) E) as [-> ->]. auto.
Qed.

Lemma app_inv_length_r {A} (a b c d : list A) :
  length b = length d -> a ++ b = c ++ d -> a = c /\ b = d.
Proof.
  intros L E. apply app_inv_length_l; auto.
  apply (f_equal (@length A)) in E. rewrite !app_length in E. lia.
Qed.

(** Python exceptions as values. [OutOfFuel] is never a Python exception: it marks a
    loop of the model running past its bound, and lemmas show it does not happen
    (or, where the Python code recurses forever, stands for RecursionError). *)
Inductive exn :=
| ValueError | IndexError | TypeError | KeyError | AssertionError | StopIteration
| ProofError | ConsistencyError | ConsistencyVerificationFailed
| LogicError | PlenumValueError | ZeroDivisionError | AttributeError | OutOfFuel.

Inductive res (A : Type) := Ok (a : A) | Err (e : exn).
Arguments Ok {A} a.
Arguments Err {A} e.

Definition bind {A B} (x : res A) (f : A -> res B) : res B :=
  match x with Ok a => f a | Err e => Err e end.

Declare Scope res_scope.
Delimit Scope res_scope with res.
Notation "x <- e ;; f" := (bind e (fun x => f)) (at level 61, e at next level, right associativity) : res_scope.
Notation "' p <- e ;; f" := (bind e (fun p => f)) (at level 61, p pattern, e at next level, right associativity) : res_scope.

Fixpoint mapM {A B} (f : A -> res B) (l : list A) : res (list B) :=
  match l with
  | [] => Ok []
  | x :: l' => bind (f x) (fun y => bind (mapM f l') (fun ys => Ok (y :: ys)))
  end.

Lemma mapM_map {A B} (f : A -> res B) (g : A -> B) l :
  (forall x, In x l -> f x = Ok (g x)) -> mapM f l = Ok (map g l).
Proof.
  induction l as [|x l IH]; simpl; intros Hf; auto.
  rewrite (Hf x) by auto. simpl. rewrite IH by auto. reflexivity.
Qed.
