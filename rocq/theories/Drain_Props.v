(** C104: the boxes of the replicas are emptied in order, without loss, and each gets its turn. *)
From Coq Require Import List Arith Bool Lia.
From Verif Require Import Drain_Model Drain_Spec.
Import ListNotations.

Lemma outs_app i a b : outs i (a ++ b) = outs i a ++ outs i b.
Proof. induction a as [|[j m|j m] q IH]; cbn; auto. destruct (j =? i); cbn; congruence. Qed.
Lemma puts_app i a b : puts i (a ++ b) = puts i a ++ puts i b.
Proof. induction a as [|[j m|j m] q IH]; cbn; auto. destruct (j =? i); cbn; congruence. Qed.
Lemma outs_puts i ps : outs i (map put_event ps) = [].
Proof. induction ps; cbn; auto. Qed.
Lemma put_all_spec ps : forall b i, put_all b ps i = b i ++ puts i (map put_event ps).
Proof.
  induction ps as [|[j m] ps IH]; intros b i; cbn; [rewrite app_nil_r; reflexivity|].
  unfold put_all in *. cbn. rewrite IH. unfold put, upd. cbn. destruct (j =? i) eqn:E; [|reflexivity].
  apply Nat.eqb_eq in E; subst. rewrite <- app_assoc. reflexivity.
Qed.

Section Proc.
Variable proc : list event -> nat -> nat -> list (nat * nat) * bool.
Variable per : option nat.
Notation step := (step proc per).
Notation run := (run proc per).
Lemma run_S n s : run (S n) s = step (run n s).
Proof. revert s. induction n as [|n IH]; intros s; [reflexivity|]. cbn [Drain_Model.run] in *. rewrite <- IH. reflexivity. Qed.

(** one turn on a box that is not empty *)
Lemma step_out s i q m l ps err : todo s = i :: q -> box s i = m :: l -> proc (log s) i m = (ps, err) ->
  box (step s) = put_all (upd (box s) i l) ps /\ log (step s) = log s ++ Out i m :: map put_event ps.
Proof.
  intros T B P. unfold Drain_Model.step. rewrite T, B, P. destruct err; [auto|].
  destruct per as [p|]; [destruct (p <=? S (num s))|]; auto.
Qed.
Lemma fifo_step b0 s : (forall j, outs j (log s) ++ box s j = b0 j ++ puts j (log s)) ->
  forall j, outs j (log (step s)) ++ box (step s) j = b0 j ++ puts j (log (step s)).
Proof.
  intros H j. destruct (todo s) as [|i q] eqn:T; [unfold Drain_Model.step; rewrite T; apply H|].
  destruct (box s i) as [|m l] eqn:B; [unfold Drain_Model.step; rewrite T, B; apply H|].
  destruct (proc (log s) i m) as [ps err] eqn:P. destruct (step_out s i q m l ps err T B P) as [-> ->].
  rewrite outs_app, puts_app, put_all_spec. cbn [outs puts]. rewrite outs_puts. unfold upd.
  specialize (H j). destruct (i =? j) eqn:E.
  - apply Nat.eqb_eq in E; subst. rewrite B in H. rewrite !app_assoc, <- H, <- !app_assoc. reflexivity.
  - rewrite app_nil_r, !app_assoc, H. reflexivity.
Qed.
(** At any time, whatever the node does with the messages, and also when it raises: what was taken from a box, followed by
    what is in it, is what was in it followed by what was put into it: nothing is lost, doubled or out of order *)
Theorem C104_fifo : forall b ids n i, let s := run n (start b ids) in
  outs i (log s) ++ box s i = b i ++ puts i (log s).
Proof.
  intros b ids n. cbn zeta. induction n as [|n IH]; intros i.
  - cbn. rewrite app_nil_r. reflexivity.
  - rewrite run_S. apply fifo_step. exact IH.
Qed.

(** *** shares *)
Hypothesis per_pos : per <> Some 0.
Definition Share (b : boxes) (ids : list nat) (s : state) : Prop :=
  exists before, ids = before ++ todo s /\
    (forall i, In i before -> at_least per (length (b i)) <= length (outs i (log s)) /\ at_most per (length (outs i (log s)))) /\
    (match todo s with
     | [] => True
     | i :: q => length (outs i (log s)) = num s /\ (forall p, per = Some p -> num s < p) /\ forall j, In j q -> outs j (log s) = []
     end).
Lemma share_step b ids s : NoDup ids -> (forall j, outs j (log s) ++ box s j = b j ++ puts j (log s)) ->
  Share b ids s -> failed (step s) = false -> Share b ids (step s).
Proof.
  intros N H (before & I & D & X) F.
  destruct (todo s) as [|i q] eqn:T; [exists before; unfold Drain_Model.step; rewrite T; rewrite T; auto|].
  destruct X as (L & P & Z).
  assert (Nb : ~ In i before /\ NoDup (i :: q) /\ forall j, In j before -> ~ In j q).
  { rewrite I in N. clear - N. induction before as [|x r IH]; cbn in N; [repeat split; auto|].
    inversion N as [|? ? A B]; subst. destruct (IH B) as (U & V & W). repeat split; auto.
    - intros [->|E]; auto. apply A, in_or_app. right; left; reflexivity.
    - intros j [->|E] J; [apply A, in_or_app; right; right; exact J|exact (W j E J)]. }
  destruct Nb as (Nb & Nq & Nbq). inversion Nq as [|? ? Niq _]; subst.
  assert (next : forall lg, log (step s) = lg -> todo (step s) = q -> num (step s) = 0 ->
    (forall j, j <> i -> outs j lg = outs j (log s)) ->
    at_least per (length (b i)) <= length (outs i lg) -> at_most per (length (outs i lg)) -> Share b (before ++ i :: q) (step s)).
  { intros lg E1 E2 E3 O A M. exists (before ++ [i]). rewrite E2, <- app_assoc. split; [reflexivity|]. rewrite E1. split.
    - intros j J. apply in_app_or in J. destruct J as [J|[<-|[]]]; [|auto]. rewrite O; [apply D; exact J|]. intros ->. auto.
    - destruct q as [|k q']; [auto|]. rewrite E3. rewrite O by (intros ->; apply Niq; left; reflexivity).
      rewrite (Z k (or_introl eq_refl)). split; [reflexivity|]. split.
      + intros p ->. destruct p; [congruence|lia].
      + intros j J. rewrite O; [apply Z; right; exact J|]. intros ->. apply Niq; right; exact J. }
  destruct (box s i) as [|m l] eqn:B.
  - unfold Drain_Model.step in *. rewrite T, B in *. cbn [log todo num failed box] in *. apply (next (log s)); auto.
    + specialize (H i). rewrite B, app_nil_r in H. rewrite H, app_length. unfold at_least. destruct per; lia.
    + unfold at_most. destruct per as [p|]; auto. rewrite L. specialize (P p eq_refl). lia.
  - destruct (proc (log s) i m) as [ps err] eqn:Q.
    set (lg := log s ++ Out i m :: map put_event ps).
    assert (O : forall j, j <> i -> outs j lg = outs j (log s)).
    { intros j J. unfold lg. rewrite outs_app. cbn [outs]. apply not_eq_sym, Nat.eqb_neq in J. rewrite J, outs_puts, app_nil_r. reflexivity. }
    assert (Oi : length (outs i lg) = S (num s)).
    { unfold lg. rewrite outs_app. cbn [outs]. rewrite Nat.eqb_refl, outs_puts, app_length, L. cbn. lia. }
    assert (E : step s = if err then State (put_all (upd (box s) i l) ps) [] 0 lg true
          else match per with
               | Some p => if p <=? S (num s) then State (put_all (upd (box s) i l) ps) q 0 lg (failed s) else State (put_all (upd (box s) i l) ps) (i :: q) (S (num s)) lg (failed s)
               | None => State (put_all (upd (box s) i l) ps) (i :: q) (S (num s)) lg (failed s)
               end).
    { unfold Drain_Model.step. rewrite T, B, Q. reflexivity. }
    destruct err; [rewrite E in F; discriminate|].
    assert (stay : log (step s) = lg -> todo (step s) = i :: q -> num (step s) = S (num s) -> (forall p, per = Some p -> S (num s) < p) ->
      Share b (before ++ i :: q) (step s)).
    { intros E1 E2 E3 P'. exists before. rewrite E1, E2, E3. split; [reflexivity|]. split.
      - intros j J. rewrite O; [apply D; exact J|]. intros ->. auto.
      - split; [exact Oi|]. split; [exact P'|]. intros j J. rewrite O; [apply Z; exact J|]. intros ->. auto. }
    destruct per as [p|].
    + destruct (p <=? S (num s)) eqn:C.
      * apply Nat.leb_le in C. apply (next lg); try (rewrite E; reflexivity); auto.
        { rewrite Oi. cbn. lia. }
        { rewrite Oi. cbn. specialize (P p eq_refl). lia. }
      * apply Nat.leb_gt in C. apply stay; try (rewrite E; reflexivity). intros p' [= <-]. exact C.
    + apply stay; try (rewrite E; reflexivity). intros p [=].
Qed.
Lemma failed_mono s : failed s = true -> failed (step s) = true.
Proof.
  intros F. unfold Drain_Model.step. destruct (todo s) as [|i q]; [exact F|]. destruct (box s i) as [|m l]; [exact F|].
  destruct (proc (log s) i m) as [ps [|]]; [reflexivity|]. destruct per as [p|]; [destruct (p <=? S (num s))|]; exact F.
Qed.
Lemma share_run b ids n : NoDup ids -> failed (run n (start b ids)) = false -> Share b ids (run n (start b ids)).
Proof.
  intros N. induction n as [|n IH]; intros F.
  - exists []. split; [reflexivity|]. split; [intros i []|]. cbn. destruct ids as [|i q]; [exact I|].
    split; [reflexivity|]. split; [|reflexivity]. intros p E. destruct p; [congruence|lia].
  - rewrite run_S in *. apply share_step; auto.
    + intros j. apply (C104_fifo b ids n j).
    + apply IH. destruct (failed (run n (start b ids))) eqn:G; auto. apply failed_mono in G. congruence.
Qed.
(** When all were visited without exception, every replica has handed out at least what was in its box at the start, or
    its share if that is less, and not more than its share *)
Theorem C104_shares : forall b ids n, NoDup ids -> let s := run n (start b ids) in
  todo s = [] -> failed s = false ->
  forall i, In i ids -> at_least per (length (b i)) <= length (outs i (log s)) /\ at_most per (length (outs i (log s))).
Proof.
  intros b ids n N s T F i I. destruct (share_run b ids n N F) as (before & E & D & _).
  fold s in E, D. rewrite T, app_nil_r in E. subst ids. apply D. exact I.
Qed.
End Proc.

Lemma run_done proc per n s : todo s = [] -> run proc per n s = s.
Proof. intros T. induction n as [|n IH]; [reflexivity|]. cbn [run]. unfold step. rewrite T. exact IH. Qed.
Lemma run_add proc per a b s : run proc per (a + b) s = run proc per b (run proc per a s).
Proof. revert s. induction a as [|a IH]; intros s; [reflexivity|]. cbn [run Nat.add]. apply IH. Qed.
(** with a limit the visits come to an end, whatever the node does *)
Theorem C104_ends : forall proc p b ids, exists n, todo (run proc (Some p) n (start b ids)) = [].
Proof.
  intros proc p b ids.
  assert (H : forall k s, length (todo s) * S (S p) + S p - num s <= k -> num s <= p -> exists n, todo (run proc (Some p) n s) = []).
  { induction k as [|k IH]; intros s L M.
    - lia.
    - destruct (todo s) as [|i q] eqn:T; [exists 0; exact T|]. cbn [length] in L.
      assert (Q : exists n, todo (run proc (Some p) n (step proc (Some p) s)) = []).
      { destruct (step proc (Some p) s) as [b' t' n' l' f'] eqn:E. unfold step in E. rewrite T in E.
        destruct (box s i) as [|m l]; [injection E as <- <- <- <- <-; apply IH; cbn [todo num]; lia|].
        destruct (proc (log s) i m) as [ps [|]]; [injection E as <- <- <- <- <-; exists 0; reflexivity|].
        destruct (p <=? S (num s)) eqn:C; injection E as <- <- <- <- <-; apply IH; cbn [todo num length]; try lia.
        all: apply Nat.leb_gt in C; lia. }
      destruct Q as [n Q]. exists (S n). exact Q. }
  eapply H; [apply le_n|cbn; lia].
Qed.
(** without one they need not: a replica whose messages make it send again keeps all the others waiting for ever *)
Theorem C104_unlimited_refuted : forall b ids, b 0 <> [] ->
  let proc := fun (_ : list event) (i m : nat) => ([(i, m)], false) in
  forall n, let s := run proc None n (start b (0 :: ids)) in
  todo s = 0 :: ids /\ length (outs 0 (log s)) = n /\ forall j, j <> 0 -> outs j (log s) = [].
Proof.
  intros b ids B proc n. cbn zeta.
  assert (H : let s := run proc None n (start b (0 :: ids)) in
    box s 0 <> [] /\ todo s = 0 :: ids /\ length (outs 0 (log s)) = n /\ forall j, j <> 0 -> outs j (log s) = []).
  { induction n as [|n IH]; cbn zeta in *; [cbn; auto|]. rewrite run_S.
    destruct IH as (Bx & T & L & Z). set (s := run proc None n (start b (0 :: ids))) in *.
    destruct (box s 0) as [|m l] eqn:E; [congruence|].
    assert (St : step proc None s = State (put_all (upd (box s) 0 l) [(0, m)]) (0 :: ids) (S (num s)) (log s ++ [Out 0 m; Put 0 m]) (failed s)).
    { unfold step. rewrite T, E. reflexivity. }
    rewrite St. cbn [box todo log]. repeat split.
    - rewrite put_all_spec. cbn. destruct l; discriminate.
    - rewrite outs_app, app_length, L. cbn. lia.
    - intros j J. rewrite outs_app, (Z j J). cbn. destruct j; [congruence|reflexivity]. }
  cbn zeta in H. tauto.
Qed.

(** *** the limit *)
Lemma all_outs_app a b : all_outs (a ++ b) = all_outs a + all_outs b.
Proof. induction a as [|[j m|j m] q IH]; cbn; auto. Qed.
Lemma all_outs_puts ps : all_outs (map put_event ps) = 0.
Proof. induction ps; cbn; auto. Qed.
Lemma round_div_spec a b : 0 < b -> 2 * round_div a b * b <= 2 * a + b /\ 2 * a <= 2 * round_div a b * b + b.
Proof.
  intros B. unfold round_div. pose proof (Nat.div_mod a b ltac:(lia)) as D. pose proof (Nat.mod_upper_bound a b ltac:(lia)) as M.
  set (q := a / b) in *. set (r := a mod b) in *. clearbody q r.
  destruct (2 * r <? b) eqn:E1; [apply Nat.ltb_lt in E1; nia|]. apply Nat.ltb_ge in E1.
  destruct (b <? 2 * r) eqn:E2; [apply Nat.ltb_lt in E2; nia|]. apply Nat.ltb_ge in E2.
  destruct (Nat.even q); nia.
Qed.
(** shares: none without a limit; with one, at least 1, and all the shares together are within half a message per replica of
    the limit, unless the share was set to 1 *)
Theorem C104_share_of_limit : forall l n p, per_replica (Some l) n = Some (Some p) ->
  1 <= p /\ 0 < n /\ (p = 1 \/ 2 * (p * n) <= 2 * l + n) /\ 2 * l <= 2 * (p * n) + n.
Proof.
  intros l n p E. cbn [per_replica] in E. destruct (n =? 0) eqn:N; [discriminate|]. apply Nat.eqb_neq in N.
  destruct (round_div_spec l n) as [A B]; [lia|].
  destruct (round_div l n =? 0) eqn:R; injection E as <-.
  - apply Nat.eqb_eq in R. rewrite R in *. lia.
  - apply Nat.eqb_neq in R. repeat split; try lia; try (right; nia); try nia.
Qed.
Theorem C104_share_none : forall n, per_replica None n = Some None.
Proof. reflexivity. Qed.
(** without replicas a limit raises *)
Theorem C104_no_replicas_refuted : forall l, per_replica (Some l) 0 = None.
Proof. reflexivity. Qed.
(** In all no more than the share times the number of replicas is handed out *)
Theorem C104_total : forall proc p b ids n, NoDup ids -> 0 < p ->
  failed (run proc (Some p) n (start b ids)) = false ->
  all_outs (log (run proc (Some p) n (start b ids))) <= p * length ids.
Proof.
  intros proc p b ids n N P F.
  assert (H : forall s, failed s = false -> (todo s <> [] -> num s < p) ->
    forall n, failed (run proc (Some p) n s) = false -> all_outs (log (run proc (Some p) n s)) + num s <= all_outs (log s) + p * length (todo s) + (match todo s with [] => num s | _ => 0 end)).
  { clear - P. intros s F M n. revert s F M. induction n as [|n IH]; intros s F M F'.
    - cbn [run]. destruct (todo s) as [|i q]; [lia|]. specialize (M ltac:(discriminate)). cbn [length]. nia.
    - cbn [run] in *. destruct (todo s) as [|i q] eqn:T.
      + unfold step in *. rewrite T in *. rewrite run_done; auto. lia.
      + specialize (M ltac:(discriminate)). unfold step in *. rewrite T in *. destruct (box s i) as [|m l].
        * specialize (IH (State (box s) q 0 (log s) (failed s)) F ltac:(intros; cbn; lia) F'). cbn [todo num log length] in *. destruct q; cbn [length] in *; nia.
        * destruct (proc (log s) i m) as [ps [|]].
          { rewrite run_done in F' by reflexivity. discriminate. }
          set (lg := log s ++ Out i m :: map put_event ps) in *.
          assert (A : all_outs lg = S (all_outs (log s))) by (unfold lg; rewrite all_outs_app; cbn; rewrite all_outs_puts; lia).
          destruct (p <=? S (num s)) eqn:C.
          -- pose proof (fun A B => IH _ A B F') as IH'. clear IH. specialize (IH' F ltac:(intros; cbn; lia)). cbn [todo num log length failed] in *. apply Nat.leb_le in C. destruct q; cbn [length] in *; nia.
          -- apply Nat.leb_gt in C. pose proof (fun A B => IH _ A B F') as IH'. clear IH. specialize (IH' F ltac:(intros; cbn; lia)). cbn [todo num log length failed] in *. nia. }
  specialize (H (start b ids) eq_refl). cbn [start num todo log all_outs] in H.
  specialize (H ltac:(intros; lia) n F). destruct ids; cbn [length] in *; lia.
Qed.
(** but that is not the limit: with more replicas than the limit, each hands out one *)
Theorem C104_limit_refuted : forall proc b ids l p n, NoDup ids -> l < length ids -> per_replica (Some l) (length ids) = Some (Some p) ->
  (forall i, In i ids -> b i <> []) ->
  let s := run proc (Some p) n (start b ids) in todo s = [] -> failed s = false -> l < all_outs (log s).
Proof.
  intros proc b ids l p n N L E B s T F.
  assert (P : 1 <= p) by (apply C104_share_of_limit in E; tauto).
  assert (H : forall i, In i ids -> 1 <= length (outs i (log s))).
  { intros i I. destruct (C104_shares proc (Some p) ltac:(intros [=]; lia) b ids n N T F i I) as [A _]. cbn in A.
    specialize (B i I). fold s in A. destruct (b i); [congruence|]. cbn [length] in A. lia. }
  assert (S : forall lg ids, NoDup ids -> (forall i, In i ids -> 1 <= length (outs i lg)) -> length ids <= all_outs lg).
  { clear. induction lg as [|e q IH]; intros ids N H.
    - destruct ids as [|i r]; [auto|]. specialize (H i (or_introl eq_refl)). cbn in H. lia.
    - destruct e as [j m|j m]; [|apply (IH ids N); exact H].
      cbn [all_outs]. destruct (in_dec Nat.eq_dec j ids) as [J|J].
      + apply in_split in J. destruct J as (a & c & ->). pose proof (NoDup_remove_1 _ _ _ N) as N1. pose proof (NoDup_remove_2 _ _ _ N) as N2.
        rewrite app_length. cbn [length]. specialize (IH (a ++ c) N1). rewrite app_length in IH. cut (length a + length c <= all_outs q); [lia|].
        apply IH. intros i I. specialize (H i). cbn in H. destruct (j =? i) eqn:E.
        { apply Nat.eqb_eq in E; subst. elim N2. exact I. }
        apply H. apply in_app_or in I. apply in_or_app. destruct I; [left; auto|right; right; auto].
      + apply le_S. apply IH; auto. intros i I. specialize (H i I). cbn in H. destruct (j =? i) eqn:E; auto.
        apply Nat.eqb_eq in E; subst. contradiction. }
  specialize (S (log s) ids N H). lia.
Qed.
(** and by rounding also with fewer: limit 3, two replicas, two messages of each *)
Example C104_limit_ex : per_replica (Some 3) 2 = Some (Some 2) /\ per_replica (Some 5) 2 = Some (Some 2) /\ per_replica (Some 1) 4 = Some (Some 1) /\
  per_replica (Some 0) 4 = Some (Some 1).
Proof. repeat split. Qed.

(** messages of replica 1 make replica 0 and 2 send more *)
Definition ex_proc (_ : list event) (i m : nat) : list (nat * nat) * bool :=
  if i =? 1 then ([(0, m + 10); (2, m + 10)], false) else ([], false).
Definition ex_boxes : boxes := fun i => match i with 0 => [1; 2; 3] | 1 => [4; 5] | _ => [6] end.
Example C104_ex :
  let s := run ex_proc (Some 2) 20 (start ex_boxes [0; 1; 2]) in
  todo s = [] /\ failed s = false /\ outs 0 (log s) = [1; 2] /\ box s 0 = [3; 14; 15] /\ outs 1 (log s) = [4; 5] /\
  outs 2 (log s) = [6; 14] /\ box s 2 = [15].
Proof. vm_compute. repeat split. Qed.

(** *** inboxes: limit 0 is no limit there, and one message per replica for the outboxes *)
Theorem C104_zero_refuted : inbox_limit (Some 0) = None /\ forall n, 0 < n -> per_replica (Some 0) n = Some (Some 1).
Proof.
  split; [reflexivity|]. intros n N. cbn [per_replica]. destruct n as [|n]; [lia|]. cbn [Nat.eqb].
  unfold round_div. rewrite Nat.div_0_l, Nat.mod_0_l by lia. reflexivity.
Qed.
(** A replica handles the messages of its inbox in order, at least those that were there, or as many as the limit allows *)
Theorem C104_inbox : forall proc limit b i n, let s := run proc (inbox_limit limit) n (start b [i]) in
  todo s = [] -> failed s = false ->
  at_least (inbox_limit limit) (length (b i)) <= length (outs i (log s)) /\ at_most (inbox_limit limit) (length (outs i (log s))) /\
  outs i (log s) ++ box s i = b i ++ puts i (log s).
Proof.
  intros proc limit b i n s T F.
  destruct (C104_shares proc (inbox_limit limit) ltac:(destruct limit as [[|l]|]; discriminate) b [i] n ltac:(repeat constructor; intros []) T F i (or_introl eq_refl)) as [A B].
  repeat split; auto. apply C104_fifo.
Qed.
Example C104_inbox_ex :
  let s := run (fun _ i m => if m =? 2 then ([(i, 9)], false) else ([], false)) (inbox_limit (Some 3)) 9 (start ex_boxes [0]) in
  todo s = [] /\ failed s = false /\ outs 0 (log s) = [1; 2; 3] /\ box s 0 = [9].
Proof. vm_compute. repeat split. Qed.

(** *** Ordered messages taken out of turn *)
Lemma to_remove_app last l r i : to_remove last i (l ++ r) = to_remove last i l ++ to_remove last (i + length l) r.
Proof.
  revert i. induction l as [|x q IH]; intros i; cbn; [rewrite Nat.add_0_r; reflexivity|].
  rewrite IH, Nat.add_succ_comm. destruct (selected last x); reflexivity.
Qed.
Lemma take_out_spec last l : forall suf acc,
  take_out (rev (to_remove last 0 l)) (l ++ suf) acc = Some (filter (selected last) l ++ acc, filter (fun m => negb (selected last m)) l ++ suf).
Proof.
  induction l as [|x l IH] using rev_ind; intros suf acc; [reflexivity|].
  rewrite to_remove_app, rev_app_distr, !filter_app. cbn [to_remove filter Nat.add]. destruct (selected last x) eqn:E; cbn [negb rev app].
  - cbn [take_out]. rewrite <- app_assoc. cbn [app]. rewrite nth_error_app2, Nat.sub_diag by lia. cbn [nth_error].
    assert (D : del_at (length l) (l ++ x :: suf) = l ++ suf).
    { unfold del_at. rewrite firstn_app, firstn_all, Nat.sub_diag. cbn [firstn]. rewrite app_nil_r.
      rewrite skipn_app, skipn_all2 by lia. replace (S (length l) - length l) with 1 by lia. reflexivity. }
    rewrite D, IH. rewrite app_nil_r, <- app_assoc. reflexivity.
  - rewrite app_nil_r, <- app_assoc. cbn [app]. rewrite IH, <- app_assoc. reflexivity.
Qed.
(** exactly the Ordered messages (up to the given number, if one is given) are taken, in order, and all the others stay, in order *)
Theorem C104_ordered : forall last box,
  exists removed rest, remove_ordered last box = Some (removed, rest) /\
    removed = filter (fun m => match m with Ordered _ p => match last with None => true | Some (_, q) => p <=? q end | Other _ => false end) box /\
    rest = filter (fun m => match m with Ordered _ p => match last with None => false | Some (_, q) => q <? p end | Other _ => true end) box.
Proof.
  intros last box. unfold remove_ordered. pose proof (take_out_spec last box [] []) as H. rewrite !app_nil_r in H.
  eexists _, _. split; [exact H|]. split; [reflexivity|]. apply filter_ext. intros [v p|x]; [|reflexivity].
  unfold selected. destruct last as [[w q]|]; [|reflexivity]. rewrite Nat.ltb_antisym. reflexivity.
Qed.
Example C104_ordered_ex :
  remove_ordered None [Other 1; Ordered 0 1; Other 2; Ordered 0 2] = Some ([Ordered 0 1; Ordered 0 2], [Other 1; Other 2]) /\
  remove_ordered (Some (0, 1)) [Other 1; Ordered 0 1; Other 2; Ordered 0 2] = Some ([Ordered 0 1], [Other 1; Other 2; Ordered 0 2]).
Proof. split; reflexivity. Qed.

Print Assumptions C104_fifo.
Print Assumptions C104_shares.
Print Assumptions C104_ends.
Print Assumptions C104_total.
Print Assumptions C104_limit_refuted.
Print Assumptions C104_ordered.
