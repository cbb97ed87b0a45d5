(** C93: batches that come too early are applied in their turn. *)
From Coq Require Import List Arith Bool Lia.
From Verif Require Import Early_Model Early_Spec Early_Proofs.
Import ListNotations.

(** Whatever comes in whatever order, also from a primary that is malicious: batches are applied in the order of their numbers, from 1 on, without a
    gap and none twice, each of them came, and when it was applied there was a propagate of each of its requests. *)
Theorem C93_order : forall valid cf os, let s := run valid cf init os in map p_seq (applied s) = seq 1 (last s).
Proof. intros valid cf os. apply (g_log _ (good_run valid cf os init good_init)). Qed.
Theorem C93_came : forall valid cf os p, In p (applied (run valid cf init os)) -> came os p.
Proof.
  intros valid cf os p I. destruct (from_run valid cf os (fun _ => False) init) as (_ & B).
  - split; [intros q [[]|[]]|intros q []].
  - destruct (B p I) as [[]|Q]. exact Q.
Qed.
Theorem C93_known : forall valid cf s o, exists new, applied (step valid cf s o) = applied s ++ new /\
  forall p r, In p new -> In r (p_reqs p) -> In r (seen (step valid cf s o)).
Proof. intros valid cf s o. apply new_known. Qed.

(** If the primary is correct, what is applied is what it sent, and what came and was not applied yet is kept, as long as no request is
    forgotten. *)
Theorem C93_primary : forall valid P cf os, correct valid P -> only_from P os ->
  let s := run valid cf init os in applied s = map P (seq 1 (last s)).
Proof.
  intros valid P cf os (A & B) O. apply log_eq; [apply good_run; apply good_init|].
  destruct (from_run valid cf os (fun _ => False) init) as (X & Y); [split; [intros q [[]|[]]|intros q []]|].
  split; intros p I; apply O; [destruct (X p I) as [[]|Q]|destruct (Y p I) as [[]|Q]]; exact Q.
Qed.
Theorem C93_kept : forall valid P cf os n, correct valid P -> only_from P os -> nothing_forgotten os -> came os (P n) ->
  let s := run valid cf init os in n <= last s \/ kept s (P n).
Proof.
  intros valid P cf os n (A & B) O Nf C s. pose proof (on_run valid cf P A B os _ init O Nf (on_init P)) as On1.
  destruct (le_lt_dec n (last s)) as [L|L]; [left; exact L|right]. apply (o_has P _ _ On1 n); [right; exact C|exact L].
Qed.
(** ... and once the first [k] batches came and all their requests are propagated and finalised, they are applied when the queues are
    looked at, if what was applied before is ordered.  Missing: see [C93_blocked_refuted]. *)
Theorem C93_complete_partial : forall valid P cf os k, correct valid P -> only_from P os -> nothing_forgotten os ->
  (forall j, 1 <= j <= k -> came os (P j) /\ forall r, In r (p_reqs (P j)) -> In (See r) os /\ In (Finalise r) os) ->
  let s := run valid cf init os in ordered s = last s -> k <= last (step valid cf s Service).
Proof.
  intros valid P cf os k (A & B) O Nf H s E. cbn [step]. apply (complete valid cf P A B (fun n => False \/ came os (P n))).
  - exact (on_run valid cf P A B os _ init O Nf (on_init P)).
  - exact E.
  - intros j J. destruct (H j J) as (C & R). split; [right; exact C|]. intros r I. destruct (R r I) as (R1 & R2). apply final_run; assumption.
Qed.

Definition P (n : nat) : pp := PP n [n; 100] n.
Definition any (l : list pp) (p : pp) : bool := true.
Definition story : list op :=
  [Receive (P 3); See 2; Receive (P 2); See 1; See 100; See 3; Receive (P 3); Receive (P 1); Finalise 100; Finalise 1; Finalise 2; Order; Finalise 3].
Example story_ok : correct any P /\ only_from P story /\ nothing_forgotten story.
Proof.
  split; [split; reflexivity|]. split.
  - intros p C. unfold came, story in C. cbn [In] in C. repeat (destruct C as [C|C]; [try discriminate; injection C as <-; reflexivity|]). destruct C.
  - intros r C. unfold story in C. cbn [In] in C. repeat (destruct C as [C|C]; [discriminate|]). destruct C.
Qed.
Example story_run : let s := run any 10 init story in
  ordered s = last s /\ last s = 1 /\ pend s = [(P 3, [3; 100]); (P 2, [2; 100])] /\ map fst (prev s) = [3] /\
  applied (step any 10 s Service) = [P 1; P 2; P 3].
Proof. vm_compute. repeat split; reflexivity. Qed.

(** Refuted: without what was applied being ordered, batches are applied as soon as all is there.  A batch that came twice waits once more after having
    been applied, and blocks those after it until it is ordered. *)
Theorem C93_blocked_refuted : exists os, correct any P /\ only_from P os /\ nothing_forgotten os /\
  (forall j, 1 <= j <= 4 -> came os (P j) /\ forall r, In r (p_reqs (P j)) -> In (See r) os /\ In (Finalise r) os) /\
  forall n, last (run any 10 init (os ++ repeat Service n)) = 3.
Proof.
  set (os := [See 1; See 2; See 3; See 4; See 100; Finalise 1; Finalise 2; Finalise 3; Finalise 4; Finalise 100; Receive (P 2); Receive (P 4); Receive (P 1); Receive (P 2); Receive (P 3)]).
  exists os. split; [split; reflexivity|]. split.
  { intros p C. unfold came, os in C. cbn [In] in C. repeat (destruct C as [C|C]; [try discriminate; injection C as <-; reflexivity|]). destruct C. }
  split.
  { intros r C. unfold os in C. cbn [In] in C. repeat (destruct C as [C|C]; [discriminate|]). destruct C. }
  split.
  { intros j J. assert (Q : j = 1 \/ j = 2 \/ j = 3 \/ j = 4) by lia. unfold came, os.
    destruct Q as [->|[->|[->| ->]]]; (split; [cbn; tauto|intros r I; cbn in I; destruct I as [<-|[<-|[]]]; cbn; tauto]). }
  intros n. unfold run. rewrite fold_left_app. assert (E : forall s, step any 10 s Service = s -> fold_left (step any 10) (repeat Service n) s = s).
  { intros s Es. induction n as [|n IH]; cbn [repeat fold_left]; [reflexivity|]. rewrite Es. exact IH. }
  rewrite E; vm_compute; reflexivity.
Qed.
(** Refuted: a batch waits until its requests are finalised.  One that is known to be propagated by one node is enough. *)
Theorem C93_final_refuted : forall valid cf s p, ordered s <= last s -> p_seq p = S (last s) -> valid (applied s) p = true ->
  (forall r, In r (p_reqs p) -> In r (seen s)) -> applied (receive valid cf s p) = applied s ++ [p].
Proof.
  intros valid cf s p O E V K. unfold receive. rewrite E. destruct (Nat.leb_spec (S (last s)) (ordered s)); [lia|]. destruct (Nat.leb_spec (S (last s)) (last s)); [lia|].
  assert (M : missing s p = []).
  { destruct (missing s p) as [|r m] eqn:M; [reflexivity|]. exfalso. assert (J : In r (missing s p)) by (rewrite M; left; reflexivity). unfold missing in J.
    apply filter_In in J as (J & Q). assert (Kn : known s r = true) by (apply existsb_exists; exists r; split; [apply K; exact J|apply Nat.eqb_refl]). rewrite Kn in Q. discriminate. }
  rewrite M. assert (X : is_next s (S (last s)) = true) by (unfold is_next; rewrite Nat.eqb_refl; destruct (S (last s) =? 1); reflexivity). rewrite X, V. reflexivity.
Qed.
Example final_example : let s := run any 10 init [See 1; See 100; Receive (P 1)] in applied s = [P 1] /\ fin s = [].
Proof. split; reflexivity. Qed.
(** Refuted: with a malicious primary, too, what came is kept until it is its turn.  Another batch of the same number takes its place. *)
Theorem C93_replaced_refuted : exists os p, came os p /\ p_reqs p = [] /\
  let s := run any 10 init (os ++ [Service]) in last s = 2 /\ ~ In p (applied s) /\ ~ kept s p.
Proof.
  exists [Receive (PP 2 [] 7); Receive (PP 2 [] 8); Receive (PP 1 [] 0)], (PP 2 [] 7). split; [left; reflexivity|]. split; [reflexivity|]. vm_compute. split; [reflexivity|].
  split; [intros [Q|[Q|[]]]; discriminate|intros [[]|[]]].
Qed.

(** If a batch comes before others, whose requests are known, those are asked for, if they are fewer than the checkpoint frequency. *)
Theorem C93_asks : forall valid cf s p, ordered s <= last s -> S (last s) < p_seq p <= last s + cf -> (forall r, In r (p_reqs p) -> In r (seen s)) ->
  forall n, In n (asked (receive valid cf s p)) <-> In n (asked s) \/ last s < n < p_seq p.
Proof.
  intros valid cf s p O L K n. unfold receive. destruct (Nat.leb_spec (p_seq p) (ordered s)); [lia|]. destruct (Nat.leb_spec (p_seq p) (last s)); [lia|].
  assert (M : missing s p = []).
  { destruct (missing s p) as [|r m] eqn:M; [reflexivity|]. exfalso. assert (J : In r (missing s p)) by (rewrite M; left; reflexivity). unfold missing in J.
    apply filter_In in J as (J & Q). assert (Kn : known s r = true) by (apply existsb_exists; exists r; split; [apply K; exact J|apply Nat.eqb_refl]). rewrite Kn in Q. discriminate. }
  rewrite M. assert (X : is_next s (p_seq p) = false) by (unfold is_next; destruct (Nat.eqb_spec (p_seq p) 1); [lia|]; apply Nat.eqb_neq; lia). rewrite X. cbn [negb asked].
  rewrite in_app_iff. unfold ask. destruct (Nat.leb_spec (S (last s)) (p_seq p - 1)); [|lia]. destruct (Nat.leb_spec (S (p_seq p)) (S (last s) + cf)); [|lia].
  cbn [andb]. rewrite in_seq. split; (intros [I|I]; [left; exact I|right; lia]).
Qed.
Example asks_example : asked (run any 10 init [See 4; See 100; Receive (P 4)]) = [1; 2; 3].
Proof. reflexivity. Qed.
(** Refuted: this is so however many are missing. *)
Theorem C93_far_refuted : forall valid cf s p, ordered s <= last s -> last s + cf < p_seq p -> asked (receive valid cf s p) = asked s.
Proof.
  intros valid cf s p O L. unfold receive. destruct (p_seq p <=? ordered s); [reflexivity|]. destruct (p_seq p <=? last s); [reflexivity|]. destruct (missing s p); [|reflexivity].
  destruct (negb (is_next s (p_seq p))); [|destruct (valid (applied s) p); reflexivity]. cbn [asked]. unfold ask.
  destruct (Nat.leb_spec (S (p_seq p)) (S (last s) + cf)); [lia|]. rewrite andb_false_r. apply app_nil_r.
Qed.

Print Assumptions C93_order.
Print Assumptions C93_came.
Print Assumptions C93_known.
Print Assumptions C93_primary.
Print Assumptions C93_kept.
Print Assumptions C93_complete_partial.
Print Assumptions C93_blocked_refuted.
Print Assumptions C93_final_refuted.
Print Assumptions C93_replaced_refuted.
Print Assumptions C93_asks.
Print Assumptions C93_far_refuted.
