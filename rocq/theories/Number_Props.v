(** C77: the numbers of batches in backup instances. *)
From Coq Require Import List Arith Bool Lia.
From Verif Require Import Base Dict Number_Model Number_Spec Number_Proofs.
Import ListNotations.

(** A node never sends two PrePrepares of one number as the primary of a backup instance in a view, over any number
    of restarts, if at each restart the number of the last one is on disk (see C77_remembered for when it is, and the
    refutations for when it is not), and the instance was not removed. *)
Theorem C77_no_reuse_partial insts am mif i os : In i insts ->
  throughout insts am mif os (fun s es o => sensible am s o /\ o <> Remove i /\ (o = Reboot -> remembered i s es)) ->
  NoDup (sent i (snd (run insts am mif (init insts am) os))).
Proof. intros Hi H. destruct (no_reuse insts am mif i os Hi H) as (_ & N & _). exact N. Qed.
Print Assumptions C77_no_reuse_partial.

(** It leaves no number out, if no catch-up moves it to another view. *)
Theorem C77_no_gap_partial insts am mif i os l1 v n l2 : In i insts ->
  throughout insts am mif os (fun s es o => sensible am s o /\ steady i s o) ->
  sent i (snd (run insts am mif (init insts am) os)) = l1 ++ (v, n) :: l2 ->
  forall k, 1 <= k < n -> In (v, k) l1.
Proof. intros Hi H E. destruct (no_gap insts am mif i os Hi H) as (_ & G & _). exact (G l1 v n l2 E). Qed.
Print Assumptions C77_no_gap_partial.

(** The number sent is on disk, or a higher one, until a view change, the end of a catch-up, or a restart. *)
Theorem C77_remembered insts am mif i s os s1 v n : forallb ordinary os = true ->
  step insts am mif s (Send i) = (s1, [Sent i v n]) ->
  exists d w m, store (fst (run insts am mif s1 os)) = Some d /\ get i d = Some (w, m) /\ n <= m.
Proof.
  intros O E. cbn [step] in E. destruct (get i (reps s)) as [r|] eqn:G; [|discriminate]. destruct (can_send mif s r) eqn:C; [|discriminate].
  injection E as <- <- <-. destruct (can_send_spec mif s r C) as (P & _).
  destruct (stored_run insts am mif i os (save i (S (last_pp r)) (upd i (raise (S (last_pp r)) r) s)) (raise (S (last_pp r)) r) (view s) (S (last_pp r)) O) as (w & m & D & L).
  - unfold save, upd. cbn [reps]. rewrite get_set, Nat.eqb_refl. reflexivity.
  - exact P.
  - rewrite disk_save, Nat.eqb_refl. reflexivity.
  - cbn [raise last_pp]. lia.
  - unfold disk in D. destruct (store _) as [d|] eqn:Es; [|discriminate]. exists d, w, m. auto.
Qed.
Print Assumptions C77_remembered.

(** In every history the last number ordered is at most the last number sent or received, so that the primary is never
    held back for having ordered more than it has sent (the check in [can_send]). *)
Theorem C77_never_ahead insts am mif os i r : get i (reps (fst (run insts am mif (init insts am) os))) = Some r ->
  snd (last_ord r) <= last_pp r.
Proof. exact (never_ahead insts am mif os i r). Qed.
Print Assumptions C77_never_ahead.

(** ** Checking of histories *)
Section Check.
  Variable insts : list nat.
  Variable am : nat -> nat -> bool.
  Variable mif : option nat.
  Fixpoint checked (f : node -> list event -> op -> bool) (s : node) (es : list event) (os : list op) : bool :=
    match os with
    | [] => true
    | o :: rest => f s es o && let '(s1, e1) := step insts am mif s o in checked f s1 (es ++ e1) rest
    end.
  Lemma checked_spec f (P : node -> list event -> op -> Prop) os : (forall s e o, f s e o = true -> P s e o) ->
    checked f (init insts am) [] os = true -> throughout insts am mif os P.
  Proof.
    intros I. enough (forall os s es, checked f s es os = true -> forall p o q, os = p ++ o :: q ->
      P (fst (run insts am mif s p)) (es ++ snd (run insts am mif s p)) o) as K.
    { intros C p o q E. exact (K os _ [] C p o q E). }
    clear os. induction os as [|x os IH]; intros s es C p o q E; [destruct p; discriminate|].
    cbn [checked] in C. apply andb_true_iff in C. destruct C as [C1 C2]. destruct (step insts am mif s x) as [s1 e1] eqn:Es.
    destruct p as [|y p]; cbn [app] in E.
    - injection E as <- _. cbn [run fst snd]. rewrite app_nil_r. apply I. exact C1.
    - injection E as <- E. cbn [run]. rewrite Es. specialize (IH s1 (es ++ e1) C2 p o q E). destruct (run insts am mif s1 p) as [s2 e2]. cbn [fst snd] in *.
      rewrite app_assoc. exact IH.
  Qed.
End Check.

Definition sensibleb (am : nat -> nat -> bool) (s : node) (o : op) : bool :=
  match o with
  | StartVC v => (view s <? v) && (aud s <? v)
  | Commit v => (aud s <=? v) && (v <=? view s)
  | NewView => match target s with Some t => t =? view s | None => false end
  | Catchup (Some a) => aud s <=? a
  | Catchup None => match audit s with None => view s =? 0 | Some _ => true end
  | Adjust i _ | Setup i _ => negb (am i (view s))
  | _ => true
  end.
Lemma sensibleb_spec am s o : sensibleb am s o = true -> sensible am s o.
Proof.
  destruct o as [j|j n|j|j n|j n|j|v|v| | | |[a|]]; cbn [sensibleb sensible]; try (intros; exact Logic.I).
  - apply negb_true_iff.
  - apply negb_true_iff.
  - rewrite andb_true_iff, !Nat.leb_le. auto.
  - rewrite andb_true_iff, !Nat.ltb_lt. auto.
  - destruct (target s); [|discriminate]. rewrite Nat.eqb_eq. congruence.
  - apply Nat.leb_le.
  - intros H E. rewrite E in H. apply Nat.eqb_eq. exact H.
Qed.
Definition rememberedb (i : nat) (s : node) (es : list event) : bool :=
  forallb (fun '(v, n) => negb (v =? aud s) ||
    match audit s, store s with Some _, Some d => match get i d with Some (_, m) => n <=? m | None => false end | _, _ => false end) (sent i es).
Lemma rememberedb_spec i s es : rememberedb i s es = true -> remembered i s es.
Proof.
  unfold rememberedb. rewrite forallb_forall. intros H n X. specialize (H _ X). cbn in H. rewrite Nat.eqb_refl in H. cbn in H.
  destruct (audit s); [|discriminate]. destruct (store s) as [d|]; [|discriminate]. destruct (get i d) as [[v m]|] eqn:G; [|discriminate].
  split; [discriminate|]. exists d, v, m. apply Nat.leb_le in H. auto.
Qed.
Definition steadyb (i : nat) (s : node) (o : op) : bool :=
  match o with
  | Catchup a => ((view_after s a =? view s) || match get i (reps s) with Some r => last_pp r =? 0 | None => true end) &&
      match store s with Some d => match get i d with Some (v, _) => v =? view_after s a | None => true end | None => true end
  | _ => true
  end.
Lemma steadyb_spec i s o : steadyb i s o = true -> steady i s o.
Proof.
  destruct o; cbn; try (intros; exact Logic.I). rewrite andb_true_iff, orb_true_iff. intros [H1 H2]. split.
  - destruct H1 as [H1|H1]; [left; apply Nat.eqb_eq; exact H1|right]. intros r G. rewrite G in H1. apply Nat.eqb_eq. exact H1.
  - intros d v m Es Gd. rewrite Es, Gd in H2. apply Nat.eqb_eq. exact H2.
Qed.

(** ** A case: instances 1 and 2; the node is the primary of 1 in views 0 and 2, of 2 in view 1 *)
Definition am1 (i v : nat) : bool := match i, v with 1, 0 | 1, 2 | 2, 1 => true | _, _ => false end.
Definition H0 : list op :=
  [Catchup None; Commit 0; Send 1; Send 1; Order 1; Recv 2 1; Order 2; Reboot; Catchup None; Send 1; Order 1;
   StartVC 1; NewView; Commit 1; Recv 1 1; Send 2; Order 1; Order 2; Send 2; Reboot; StartCatchup; Catchup (Some 1); Send 2; Order 2;
   StartVC 2; NewView; Commit 2; Send 1; Order 1; Send 1].
Definition ok1 (i : nat) (s : node) (es : list event) (o : op) : bool :=
  sensibleb am1 s o && match o with Remove j => negb (j =? i) | Reboot => rememberedb i s es | _ => true end.
Definition ok2 (i : nat) (s : node) (es : list event) (o : op) : bool := sensibleb am1 s o && steadyb i s o.
Lemma ok1_spec i s es o : ok1 i s es o = true -> sensible am1 s o /\ o <> Remove i /\ (o = Reboot -> remembered i s es).
Proof.
  unfold ok1. rewrite andb_true_iff. intros [A B]. split; [apply sensibleb_spec; exact A|]. split.
  - intros ->. rewrite Nat.eqb_refl in B. discriminate.
  - intros ->. apply rememberedb_spec. exact B.
Qed.
Lemma ok2_spec i s es o : ok2 i s es o = true -> sensible am1 s o /\ steady i s o.
Proof. unfold ok2. rewrite andb_true_iff. intros [A B]. split; [apply sensibleb_spec; exact A|apply steadyb_spec; exact B]. Qed.

Example C77_ex :
  (forall i, In i [1; 2] -> throughout [1; 2] am1 (Some 4) H0 (fun s es o => sensible am1 s o /\ o <> Remove i /\ (o = Reboot -> remembered i s es))) /\
  (forall i, In i [1; 2] -> throughout [1; 2] am1 (Some 4) H0 (fun s es o => sensible am1 s o /\ steady i s o)) /\
  sent 1 (snd (run [1; 2] am1 (Some 4) (init [1; 2] am1) H0)) = [(0, 1); (0, 2); (0, 3); (2, 1); (2, 2)] /\
  sent 2 (snd (run [1; 2] am1 (Some 4) (init [1; 2] am1) H0)) = [(1, 1); (1, 2); (1, 3)].
Proof.
  split; [|split; [|split; vm_compute; reflexivity]].
  - intros i Hi. apply (checked_spec _ _ _ (ok1 i)); [apply ok1_spec|]. destruct Hi as [<-|[<-|[]]]; vm_compute; reflexivity.
  - intros i Hi. apply (checked_spec _ _ _ (ok2 i)); [apply ok2_spec|]. destruct Hi as [<-|[<-|[]]]; vm_compute; reflexivity.
Qed.

(** ** Refutations *)
Notation go os := (run [1; 2] am1 (Some 4) (init [1; 2] am1) os).
Definition all_sensible (os : list op) : Prop := throughout [1; 2] am1 (Some 4) os (fun s _ o => sensible am1 s o).
Lemma all_sensible_spec os : checked [1; 2] am1 (Some 4) (fun s _ o => sensibleb am1 s o) (init [1; 2] am1) [] os = true -> all_sensible os.
Proof. apply checked_spec. intros s e o. apply sensibleb_spec. Qed.

(** A catch-up of a running node, in any view but 0, erases the numbers on disk; after a restart the primary sends
    other batches with the same numbers. *)
Theorem C77_reuse_refuted : exists os, all_sensible os /\ (forall i, ~ In (Remove i) os) /\
  sent 2 (snd (go os)) = [(1, 1); (1, 1)].
Proof.
  exists [Catchup None; Commit 0; StartVC 1; NewView; Commit 1; Send 2; Order 2; StartCatchup; Catchup None; Reboot; Catchup None; Send 2].
  split; [apply all_sensible_spec; vm_compute; reflexivity|]. split; [cbn; intuition discriminate|vm_compute; reflexivity].
Qed.
Print Assumptions C77_reuse_refuted.

(** So it does if the master committed nothing yet. *)
Theorem C77_empty_refuted : exists os, all_sensible os /\ (forall i, ~ In (Remove i) os) /\ (forall v, ~ In (StartVC v) os) /\
  sent 1 (snd (go os)) = [(0, 1); (0, 1)].
Proof.
  exists [Catchup None; Send 1; Reboot; Catchup None; Send 1].
  split; [apply all_sensible_spec; vm_compute; reflexivity|]. split; [cbn; intuition discriminate|]. split; [cbn; intuition discriminate|vm_compute; reflexivity].
Qed.
Print Assumptions C77_empty_refuted.

(** And if the instance is removed and comes back with a catch-up, without any restart. *)
Theorem C77_removed_refuted : exists os, all_sensible os /\ ~ In Reboot os /\ sent 2 (snd (go os)) = [(1, 1); (1, 1)].
Proof.
  exists [Catchup None; Commit 0; StartVC 1; NewView; Commit 1; Send 2; Order 2; Remove 2; StartCatchup; Catchup None; Send 2].
  split; [apply all_sensible_spec; vm_compute; reflexivity|]. split; [cbn; intuition discriminate|vm_compute; reflexivity].
Qed.
Print Assumptions C77_removed_refuted.

(** The view of the number on disk is not looked at: a node that was down during a view change starts the new view
    with the number of the old one.  The others wait for number 1. *)
Theorem C77_stale_view_refuted : exists os, all_sensible os /\ (forall i, ~ In (Remove i) os) /\
  sent 1 (snd (go os)) = [(0, 1); (0, 2); (2, 3)].
Proof.
  exists [Catchup None; Commit 0; Send 1; Order 1; Send 1; Order 1; Reboot; Catchup (Some 2); Send 1].
  split; [apply all_sensible_spec; vm_compute; reflexivity|]. split; [cbn; intuition discriminate|vm_compute; reflexivity].
Qed.
Print Assumptions C77_stale_view_refuted.

(** So does a node that learns of the new view from a catch-up, without any restart. *)
Definition am2 (i v : nat) : bool := match i, v with 1, 1 | 1, 2 => true | _, _ => false end.
Theorem C77_lagging_refuted : exists os,
  throughout [1; 2] am2 (Some 4) os (fun s _ o => sensible am2 s o) /\ ~ In Reboot os /\ (forall i, ~ In (Remove i) os) /\
  sent 1 (snd (run [1; 2] am2 (Some 4) (init [1; 2] am2) os)) = [(1, 1); (2, 2)].
Proof.
  exists [Catchup None; Commit 0; StartVC 1; NewView; Commit 1; Send 1; Order 1; StartCatchup; Catchup (Some 2); Send 1].
  split; [apply (checked_spec _ _ _ (fun s _ o => sensibleb am2 s o)); [intros s e o; apply sensibleb_spec|vm_compute; reflexivity]|].
  split; [cbn; intuition discriminate|]. split; [cbn; intuition discriminate|vm_compute; reflexivity].
Qed.
Print Assumptions C77_lagging_refuted.

(** In view 0 the end of a catch-up makes a running node take batches for ordered that it only sent or received: it
    never orders them. *)
Theorem C77_skipped_refuted : exists os r, all_sensible os /\ ~ In Reboot os /\ (forall i, ~ In (Remove i) os) /\
  get 1 (reps (fst (go os))) = Some r /\ last_ord r = (0, 2) /\ In (Sent 1 0 2) (snd (go os)) /\ ~ In (Ordered 1 0 2) (snd (go os)) /\
  snd (go (os ++ [Order 1; Send 1; Order 1])) = snd (go os) ++ [Sent 1 0 3; Ordered 1 0 3].
Proof.
  exists [Catchup None; Commit 0; Send 1; Order 1; Send 1; StartCatchup; Catchup None]. eexists.
  split; [apply all_sensible_spec; vm_compute; reflexivity|]. split; [cbn; intuition discriminate|]. split; [cbn; intuition discriminate|].
  split; [vm_compute; reflexivity|]. split; [reflexivity|]. split; [vm_compute; intuition|]. split; [|vm_compute; reflexivity].
  assert (snd (go [Catchup None; Commit 0; Send 1; Order 1; Send 1; StartCatchup; Catchup None]) = [Sent 1 0 1; Ordered 1 0 1; Sent 1 0 2]) as -> by (vm_compute; reflexivity).
  cbn. intuition discriminate.
Qed.
Print Assumptions C77_skipped_refuted.
