(** Property C17: quorum sizes tolerate f faulty nodes. *)
From Coq Require Import List Arith Lia Bool.
From Verif Require Import Quorum_Model.
Import ListNotations.

(** ** Counting in finite sets given as duplicate-free lists *)
Section Sets.
  Context {A : Type} (eqd : forall x y : A, {x = y} + {x <> y}).

  Definition inter (a b : list A) : list A := filter (fun x => if in_dec eqd x b then true else false) a.
  Definition minus (a b : list A) : list A := filter (fun x => if in_dec eqd x b then false else true) a.

  Lemma inter_In x a b : In x (inter a b) <-> In x a /\ In x b.
  Proof. unfold inter. rewrite filter_In. destruct (in_dec eqd x b); intuition congruence. Qed.
  Lemma minus_In x a b : In x (minus a b) <-> In x a /\ ~ In x b.
  Proof. unfold minus. rewrite filter_In. destruct (in_dec eqd x b); intuition congruence. Qed.
  Lemma split_length a b : length (inter a b) + length (minus a b) = length a.
  Proof.
    unfold inter, minus. induction a as [|x a IH]; simpl; auto.
    destruct (in_dec eqd x b); simpl; lia.
  Qed.

  (** Inclusion-exclusion bound. *)
  Lemma inter_length n a b : NoDup n -> NoDup a -> NoDup b -> incl a n -> incl b n ->
    length a + length b <= length n + length (inter a b).
  Proof.
    intros Hn Ha Hb Ia Ib.
    assert (M : NoDup (minus a b ++ b)).
    { clear -Ha Hb. induction a as [|x a IH]; simpl; auto. inversion Ha; subst.
      unfold minus in *. simpl. destruct (in_dec eqd x b); simpl; auto.
      constructor; auto. rewrite in_app_iff, filter_In. intuition. }
    assert (I : incl (minus a b ++ b) n).
    { intros x Hx. apply in_app_or in Hx as [Hx|Hx]; [|auto]. apply minus_In in Hx. apply Ia, Hx. }
    pose proof (NoDup_incl_length M I) as L. rewrite app_length in L.
    pose proof (split_length a b). lia.
  Qed.

  Lemma minus_nonempty (a b : list A) : NoDup a -> length b < length a -> exists x, In x a /\ ~ In x b.
  Proof.
    intros Ha L. destruct (minus a b) as [|x m] eqn:E.
    - exfalso. assert (incl a b).
      { intros x Hx. destruct (in_dec eqd x b); auto. assert (X : In x (minus a b)) by (apply minus_In; auto).
        rewrite E in X. destruct X. }
      pose proof (NoDup_incl_length Ha H). lia.
    - exists x. apply minus_In. rewrite E. left. reflexivity.
  Qed.

  Lemma inter_NoDup (a b : list A) : NoDup a -> NoDup (inter a b).
  Proof. apply NoDup_filter. Qed.
  Lemma minus_NoDup (a b : list A) : NoDup a -> NoDup (minus a b).
  Proof. apply NoDup_filter. Qed.
End Sets.

(** ** f = getMaxFailures n is the largest f with 3f < n *)
Lemma max_failures_div n : getMaxFailures n = (n - 1) / 3.
Proof.
  unfold getMaxFailures. destruct (Nat.leb_spec 4 n); auto.
  destruct n as [|[|[|[|n]]]]; try reflexivity. lia.
Qed.

Theorem C17_max_failures : forall n, 1 <= n ->
  3 * getMaxFailures n < n /\ forall f, 3 * f < n -> f <= getMaxFailures n.
Proof.
  intros n Hn. rewrite max_failures_div.
  pose proof (Nat.div_mod (n - 1) 3 ltac:(lia)). pose proof (Nat.mod_upper_bound (n - 1) 3 ltac:(lia)).
  split; [lia|]. intros f Hf. apply Nat.div_le_lower_bound; lia.
Qed.

Section Pool.
  Context {A : Type} (eqd : forall x y : A, {x = y} + {x <> y}).
  (** A pool of [n >= 1] distinct nodes, of which at most [f] are faulty. *)
  Variables (nodes faulty : list A).
  Hypothesis nodes_distinct : NoDup nodes.
  Hypothesis nodes_nonempty : 1 <= length nodes.
  Hypothesis faulty_bound : length faulty <= getMaxFailures (length nodes).

  Let n := length nodes.
  Let q := Quorums n.

  (** A set of members of the pool. *)
  Definition members (s : list A) : Prop := NoDup s /\ incl s nodes.

  (** The quorums of size n - f: any two sets reaching them share a non-faulty node. *)
  Theorem C17_strong_quorums_intersect : forall size,
    In size [strong q; commit q; view_change q; election q; view_change_done q; bls_signatures q] ->
    forall s1 s2, members s1 -> members s2 ->
      is_reached size (length s1) = true -> is_reached size (length s2) = true ->
      exists x, In x s1 /\ In x s2 /\ ~ In x faulty.
  Proof.
    intros size Hs s1 s2 [D1 I1] [D2 I2] R1 R2. unfold is_reached in *.
    apply Nat.leb_le in R1, R2.
    assert (size = n - getMaxFailures n) as ->.
    { unfold q in Hs. simpl in Hs. intuition congruence. }
    pose proof (C17_max_failures n nodes_nonempty) as [F _].
    pose proof (inter_length eqd nodes s1 s2 nodes_distinct D1 D2 I1 I2) as L.
    destruct (minus_nonempty eqd (inter eqd s1 s2) faulty (inter_NoDup eqd s1 s2 D1)) as (x & X1 & X2).
    { fold n in L, faulty_bound. lia. }
    apply inter_In in X1 as [X1 X1']. eauto.
  Qed.

  (** The quorums of size n - f - 1 count messages of other nodes: together with one more
      node (the primary for prepares, the counting node itself for checkpoints, ledger
      statuses and view change acknowledgements) two such sets share a non-faulty node. *)
  Theorem C17_prepare_certificates_intersect : forall size,
    In size [prepare q; view_change_ack q; ledger_status q; checkpoint q] ->
    forall p1 p2 s1 s2, members (p1 :: s1) -> members (p2 :: s2) ->
    is_reached size (length s1) = true -> is_reached size (length s2) = true ->
    exists x, In x (p1 :: s1) /\ In x (p2 :: s2) /\ ~ In x faulty.
  Proof.
    intros size Hs p1 p2 s1 s2 M1 M2 R1 R2.
    assert (size = n - getMaxFailures n - 1) as ->.
    { unfold q in Hs. simpl in Hs. intuition congruence. }
    apply C17_strong_quorums_intersect with (size := strong q); auto.
    - left. reflexivity.
    - unfold is_reached in *. apply Nat.leb_le in R1. apply Nat.leb_le. unfold q in *. simpl in *. lia.
    - unfold is_reached in *. apply Nat.leb_le in R2. apply Nat.leb_le. unfold q in *. simpl in *. lia.
  Qed.

  (** The quorums of size f + 1 always contain a non-faulty node. *)
  Theorem C17_weak_quorums_have_honest : forall size,
    In size [weak q; propagate q; reply q; same_consistency_proof q; consistency_proof q;
             ledger_status_last_3PC q; timestamp q; observer_data q; backup_instance_faulty q] ->
    forall s, NoDup s -> is_reached size (length s) = true -> exists x, In x s /\ ~ In x faulty.
  Proof.
    intros size Hs s D R. unfold is_reached in R. apply Nat.leb_le in R.
    assert (size = getMaxFailures n + 1) as ->.
    { unfold q in Hs. simpl in Hs. intuition congruence. }
    apply (minus_nonempty eqd); auto. fold n in faulty_bound. lia.
  Qed.

  (** A set of size n - f contains at least f + 1 non-faulty nodes. *)
  Theorem C17_strong_contains_weak_honest : forall s, members s ->
    is_reached (strong q) (length s) = true ->
    exists h, NoDup h /\ incl h s /\ (forall x, In x h -> ~ In x faulty) /\
      is_reached (weak q) (length h) = true.
  Proof.
    intros s [D I] R. exists (minus eqd s faulty). split; [apply minus_NoDup; auto|].
    split; [intros x Hx; apply minus_In in Hx; apply Hx|].
    split; [intros x Hx; apply minus_In in Hx; apply Hx|].
    unfold is_reached in *. apply Nat.leb_le in R. apply Nat.leb_le. unfold q in *. simpl in *.
    pose proof (C17_max_failures n nodes_nonempty) as [F _].
    pose proof (split_length eqd s faulty) as Sp. fold n in faulty_bound.
    assert (length (inter eqd s faulty) <= length faulty).
    { apply NoDup_incl_length; [apply inter_NoDup; auto|]. intros x Hx. apply inter_In in Hx. apply Hx. }
    lia.
  Qed.

  (** The non-faulty nodes alone reach every quorum; for the quorums that count messages
      of other nodes only, the non-faulty nodes other than any given one reach it. *)
  Theorem C17_honest_nodes_suffice : forall h, (forall x, In x nodes -> ~ In x faulty -> In x h) ->
    (forall size, In size [weak q; strong q; propagate q; commit q; reply q; view_change q; election q;
        view_change_done q; same_consistency_proof q; consistency_proof q; ledger_status_last_3PC q;
        timestamp q; bls_signatures q; observer_data q; backup_instance_faulty q] ->
       is_reached size (length h) = true) /\
    (forall size, In size [prepare q; view_change_ack q; ledger_status q; checkpoint q] ->
       forall me, is_reached size (length (minus eqd h [me])) = true).
  Proof.
    intros h Hh. 
    pose proof (C17_max_failures n nodes_nonempty) as [F _].
    assert (HL : forall me, n - getMaxFailures n - 1 <= length (minus eqd h [me]) /\ n - getMaxFailures n <= length h).
    { intros me.
      assert (L1 : n <= length (minus eqd nodes faulty) + length faulty).
      { pose proof (split_length eqd nodes faulty).
        assert (length (inter eqd nodes faulty) <= length faulty).
        { apply NoDup_incl_length; [apply inter_NoDup; auto|]. intros x Hx. apply inter_In in Hx. apply Hx. }
        fold n in H. lia. }
      fold n in faulty_bound.
      split.
      - assert (L2 : length (minus eqd (minus eqd nodes faulty) [me]) <= length (minus eqd h [me])).
        { apply NoDup_incl_length; [apply minus_NoDup, minus_NoDup; auto|].
          intros x Hx. apply minus_In in Hx as [Hx Hm]. apply minus_In in Hx as [Hx Hf].
          apply minus_In. auto. }
        pose proof (split_length eqd (minus eqd nodes faulty) [me]).
        assert (length (inter eqd (minus eqd nodes faulty) [me]) <= 1).
        { change 1 with (length [me]). apply NoDup_incl_length; [apply inter_NoDup, minus_NoDup; auto|].
          intros x Hx. apply inter_In in Hx. apply Hx. }
        lia.
      - assert (L2 : length (minus eqd nodes faulty) <= length h).
        { apply NoDup_incl_length; [apply minus_NoDup; auto|].
          intros x Hx. apply minus_In in Hx as [Hx Hf]. auto. }
        lia. }
    split.
    - intros size Hs. unfold is_reached. apply Nat.leb_le.
      assert (HN : exists me : A, True) by (destruct nodes as [|a l]; [simpl in *; lia|eauto]).
      destruct HN as [me _]. destruct (HL me) as [_ L].
      unfold q in Hs. simpl in Hs. unfold Quorums in Hs. fold n in faulty_bound.
      assert (size <= n - getMaxFailures n); [|lia].
      repeat (destruct Hs as [<-|Hs]; [simpl; lia|]). destruct Hs.
    - intros size Hs me. unfold is_reached. apply Nat.leb_le. destruct (HL me) as [L _].
      unfold q in Hs. simpl in Hs.
      repeat (destruct Hs as [<-|Hs]; [simpl; lia|]). destruct Hs.
  Qed.
End Pool.

(** A pool of 7 with 2 faulty nodes, two commit quorums of 5, and their common honest node. *)
Example ex_C17 :
  getMaxFailures 7 = 2 /\ commit (Quorums 7) = 5 /\ prepare (Quorums 7) = 4 /\ weak (Quorums 7) = 3 /\
  members (seq 0 7) [0; 1; 2; 3; 4] /\ members (seq 0 7) [6; 5; 4; 3; 2] /\
  is_reached (commit (Quorums 7)) (length [0; 1; 2; 3; 4]) = true.
Proof.
  repeat split; try reflexivity;
    try (repeat constructor; simpl; intuition discriminate);
    intros x Hx; simpl in Hx; apply in_seq; intuition lia.
Qed.

Print Assumptions C17_max_failures.
Print Assumptions C17_strong_quorums_intersect.
Print Assumptions C17_prepare_certificates_intersect.
Print Assumptions C17_weak_quorums_have_honest.
Print Assumptions C17_strong_contains_weak_honest.
Print Assumptions C17_honest_nodes_suffice.
