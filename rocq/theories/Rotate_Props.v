(** C97: log files. *)
From Coq Require Import List Arith Bool Lia.
From Verif Require Import Rotate_Model Rotate_Spec Rotate_Proofs.
Import ListNotations.

(** Full claim: "the files hold, in order and each once, the records that were logged last, whatever crashes there are and however far compressing
    got; nothing is missing unless there are as many rotated files as are kept".  Proved for all numbers of files to keep but 1.  With 1, the
    file that is being compressed is removed at the next rollover, and after a crash at that point its number is used again while the old process
    may still be at work. *)
Theorem C97_kept_partial : forall max_bytes backup_count compression h, backup_count <> 1 ->
  let d := run max_bytes backup_count compression init h in
  (exists lost, written h = lost ++ log d /\ (lost = [] \/ backup_count <> 0 /\ backup_count - 1 <= length (files d))) /\
  (forall f, In f (files d) -> contents f <> None).
Proof.
  intros mb bc c h N d. destruct (start_all bc N) as (G & K & L). destruct (run_good mb bc c N h [] init G K L) as (G1 & K1 & _). split; [exact K1 | apply G1].
Qed.
(** Without a limit on their number, nothing is lost. *)
Theorem C97_all : forall max_bytes compression h, log (run max_bytes 0 compression init h) = written h.
Proof.
  intros mb c h. destruct (C97_kept_partial mb 0 c h) as [(x & E & [->|[X _]]) _]; [lia | now rewrite E | contradiction].
Qed.
(** There are not more files than are to be kept. *)
Theorem C97_few_partial : forall max_bytes backup_count compression h, 2 <= backup_count ->
  length (files (run max_bytes backup_count compression init h)) <= backup_count.
Proof.
  intros mb bc c h N. assert (N1 : bc <> 1) by lia. destruct (start_all bc N1) as (G & K & L). destruct (run_good mb bc c N1 h [] init G K L) as (_ & _ & F). apply F. lia.
Qed.
(** Each is smaller than the limit, or holds a single record. *)
Theorem C97_size_partial : forall max_bytes backup_count compression h, backup_count <> 1 -> 0 < max_bytes ->
  let d := run max_bytes backup_count compression init h in
  forall c, In c (base d :: map text (files d)) -> size c < max_bytes \/ length c <= 1.
Proof.
  intros mb bc c h N M d. destruct (start_all bc N) as (G & K & L).
  assert (A : all_small mb init) by (split; [constructor | right; cbn; lia]).
  destruct (run_small mb bc c N M h [] init G K L A) as [X Y]. intros b [<-|Hb]; [exact Y|]. rewrite Forall_forall in X. exact (X b Hb).
Qed.
(** So the records take at most this much space (before compressing). *)
Theorem C97_space_partial : forall max_bytes backup_count compression h, 2 <= backup_count -> 0 < max_bytes ->
  (forall l, In l (written h) -> snd l < max_bytes) -> size (log (run max_bytes backup_count compression init h)) <= S backup_count * max_bytes.
Proof.
  intros mb bc c h N M W. assert (N1 : bc <> 1) by lia. pose proof (C97_size_partial mb bc c h N1 M) as Z. pose proof (C97_few_partial mb bc c h N) as F.
  destruct (C97_kept_partial mb bc c h N1) as [(x & E & _) _]. cbv zeta in *. set (d := run mb bc c init h) in *. clearbody d.
  assert (B : forall b, In b (base d :: map text (files d)) -> size b <= mb).
  { intros b Hb. destruct (Z b Hb) as [Q|Q]; [lia|]. destruct b as [|l [|l' b]]; cbn [length] in Q; [cbn; lia | | lia].
    assert (In l (written h)); [|specialize (W l H); unfold size; cbn; lia]. rewrite E. apply in_or_app. right. unfold log. destruct Hb as [Hb|Hb].
    - rewrite Hb. apply in_or_app. right. now left.
    - apply in_or_app. left. apply in_concat. exists [l]. split; [exact Hb | now left]. }
  unfold log, size. rewrite map_app, list_sum_app.
  assert (C : forall cs : list (list line), (forall b, In b cs -> size b <= mb) -> list_sum (map snd (concat cs)) <= length cs * mb).
  { clear. intros cs. induction cs as [|b cs IH]; intros H; [cbn; lia|]. cbn [concat length]. rewrite map_app, list_sum_app. assert (X := H b (or_introl eq_refl)). unfold size in X.
    assert (Y := IH (fun q Hq => H q (or_intror Hq))). lia. }
  assert (P := C (map text (files d)) (fun b Hb => B b (or_intror Hb))). rewrite map_length in P. assert (Q := B (base d) (or_introl eq_refl)). unfold size in Q.
  assert (length (files d) * mb <= bc * mb) by (apply Nat.mul_le_mono_r; exact F). cbn [Nat.mul]. lia.
Qed.
(** Two files are kept; a crash while the second is compressed, in the middle of removing old files; the process goes on afterwards. *)
Example C97_example :
  let h := [Emit (1, 2); Emit (2, 2); Work 1; Emit (3, 2); Work 2; CrashPruned false; Work 2; Emit (4, 2); Work 2; Emit (5, 1); Emit (6, 2); Crash true; Emit (7, 2)] in
  let d := run 4 2 true init h in
  log d = [(4, 2); (5, 1); (6, 2); (7, 2)] /\ written h = [(1, 2); (2, 2); (3, 2)] ++ log d /\ map f_idx (files d) = [4; 5].
Proof. vm_compute. repeat split. Qed.

Print Assumptions C97_kept_partial.
Print Assumptions C97_all.
Print Assumptions C97_few_partial.
Print Assumptions C97_size_partial.
Print Assumptions C97_space_partial.
