(** C84: a log kept in files gives back what was put into it. *)
From Coq Require Import List Arith Bool Lia.
Import ListNotations.
From Verif Require Import File_Model File_Spec File_Proofs FileDir_Proofs.

(** ** One file, records with keys *)
(** All that was put, in order, by iterating; the value put last for a key, by asking for it. *)
Theorem C84_keys_partial c os : usable c -> line_no c = false -> no_crash os -> Forall (plain c) (logged os) -> uneven c (logged os) ->
  iterate_keys c (run c os) None None None = (logged os, Complete) /\
  (forall k, match get_key c (run c os) k with Some v => newest (logged os) k v | None => ~ In k (map fst (logged os)) end) /\
  (forall b, iterate_keys c (run c os) (Some b) None None = (filter (fun r => negb (bytes_ltb (fst r) b)) (logged os), Complete)).
Proof.
  intros U E N H Hu. unfold get_key, iterate_keys. rewrite (run_lines c os U N H Hu). cbn [truthy andb].
  pose proof (iter_keys_all c (logged os) None U E H) as I. cbn beta iota in I.
  assert (filter (fun r : bytes * bytes => negb false) (logged os) = logged os) as F.
  { clear. induction (logged os) as [|x l IH]; [reflexivity|]. cbn in *. now rewrite IH. }
  rewrite F in I. split; [exact I|]. split.
  - intros k. rewrite I. apply last_of_spec. apply bytes_eqb_eq.
  - intros b. rewrite andb_false_r. exact (iter_keys_all c (logged os) (Some b) U E H).
Qed.
(** ** One file, records with numbers *)
Theorem C84_numbers_partial c os : usable c -> line_no c = true -> no_crash os -> Forall (plain c) (logged os) -> uneven c (logged os) ->
  let vs := map snd (logged os) in
  iterate_nos c (run c os) None None = (numbered vs 1 (length vs), Complete) /\
  (forall k, get_no c (run c os) k = nth_record k vs) /\
  (forall b e, 1 <= b -> b <= e -> iterate_nos c (run c os) (Some b) (Some e) = (numbered vs b e, Complete)).
Proof.
  intros U E N H Hu vs. pose proof (run_lines c os U N H Hu) as Ln. assert (map (body c) (logged os) = vs) as Eb.
  { unfold vs, body. rewrite E. reflexivity. }
  rewrite Eb in Ln.
  assert (iterate_nos c (run c os) None None = (combine (seq 1 (length vs)) vs, Complete)) as I.
  { unfold iterate_nos. rewrite Ln, iter_nos_spec. f_equal. cbn [andb]. generalize (combine (seq 1 (length vs)) vs). intros l. induction l as [|x l IH]; [reflexivity|]. cbn. now f_equal. }
  split; [|split].
  - rewrite I. f_equal. unfold numbered. rewrite (filter_lohi 1 Nat.lt_0_1) by lia. cbn [skipn Nat.sub]. now rewrite Nat.sub_0_r, firstn_all.
  - intros k. unfold get_no. rewrite I. cbn [fst]. pose proof (last_of_spec Nat.eqb Nat.eqb_eq k (combine (seq 1 (length vs)) vs)) as Ls.
    assert (forall s (l : list bytes) v, In (k, v) (combine (seq s (length l)) l) -> s <= k /\ nth_error l (k - s) = Some v) as In1.
    { clear. intros s l. revert s. induction l as [|x l IH]; intros s v; cbn [length seq combine]; [intros []|]. intros [Ex|Hx].
      - injection Ex as -> ->. rewrite Nat.sub_diag. split; [lia|reflexivity].
      - apply IH in Hx. destruct Hx as [Hs Hx]. split; [lia|]. now replace (k - s) with (S (k - S s)) by lia. }
    destruct (last_of Nat.eqb k (combine (seq 1 (length vs)) vs)) as [v|].
    + destruct Ls as (l1 & l2 & El & _). destruct (In1 1 vs v) as [H1 H2]. { rewrite El. apply in_app_iff. right. now left. }
      destruct k; [lia|]. cbn [nth_record]. replace (S k - 1) with k in H2 by lia. now symmetry.
    + assert (map fst (combine (seq 1 (length vs)) vs) = seq 1 (length vs)) as Em.
      { clear. generalize 1. generalize vs. clear. intros l. induction l as [|x l IH]; intros s; [reflexivity|]. cbn. now rewrite IH. }
      rewrite Em, in_seq in Ls. destruct k; [reflexivity|]. cbn [nth_record]. symmetry. apply nth_error_None. lia.
  - intros b e Hb Hbe. unfold iterate_nos. rewrite Ln. destruct b as [|b]; [lia|]. destruct e as [|e]; [lia|]. destruct (Nat.ltb_spec (S e) (S b)); [lia|].
    now rewrite iter_nos_spec.
Qed.
(** After a crash in a write, and a new start, the records put before are still read first; then comes the beginning of the last one. *)
Theorem C84_crash_partial c os k v n : usable c -> line_no c = true -> no_crash os -> Forall (plain c) (logged os) -> uneven c (logged os) -> plain c (k, v) ->
  0 < n < length (record_of c k v) ->
  let vs := map snd (logged os) ++ [firstn n (record_of c k v)] in iterate_nos c (run c (os ++ [Crash k v n])) None None = (numbered vs 1 (length vs), Complete).
Proof.
  intros U E N H Hu Hp Hn vs. pose proof (crash_lines c os k v n U N H Hu Hp Hn) as Ln. unfold iterate_nos. rewrite Ln.
  replace (map (body c) (logged os) ++ [firstn n (record_of c k v)]) with vs. 2:{ unfold vs, body. rewrite E. reflexivity. }
  rewrite iter_nos_spec. f_equal. unfold numbered. cbn [andb]. rewrite (filter_lohi 1 Nat.lt_0_1) by lia. cbn [skipn Nat.sub]. rewrite Nat.sub_0_r, firstn_all.
  generalize (combine (seq 1 (length vs)) vs). intros l. induction l as [|x l IH]; [reflexivity|]. cbn. now f_equal.
Qed.
(** ** A directory of files *)
Theorem C84_directory_partial {V} n (os : list (cop V)) : 0 < n -> all_within [] os ->
  let d := crun n os in let L := clogged os in
  csize n d = length L /\
  (forall k, k <= length L -> cget n k d = (d, nth_record k L)) /\
  (forall b e, b <> Some 0 -> e <> Some 0 -> within (length L) (@CRange V b e) -> valid_range b e = true ->
     crange n b e d = (d, numbered L (match b with Some b => b | None => 1 end) (match e with Some e => e | None => length L end), Complete)) /\
  csize n (reopen d) = length L.
Proof.
  intros Hn Hw d L. assert (holds n d L) as H. { apply run_holds; auto. now apply fresh_holds. }
  split; [now apply size_holds|]. split; [intros k Hk; now apply get_holds|]. split.
  - intros b e Nb Ne [He Hb] Hv. now apply range_ok.
  - apply size_holds; auto. now apply reopen_holds.
Qed.

(** ** What goes wrong *)
(** If a record ends where a read of the file ends (every 4096 bytes), records are read twice, and all later ones have other numbers. *)
Theorem C84_twice_refuted c os l1 l2 : usable c -> line_no c = true -> no_crash os -> Forall (plain c) (logged os) ->
  logged os = l1 ++ l2 -> l1 <> [] -> extent c l1 mod buf c = 0 ->
  length (logged os) < length (fst (iterate_nos c (run c os) None None)).
Proof.
  intros U E N H El N1 M. unfold iterate_nos. cbn [fst]. rewrite iter_nos_spec. cbn [andb].
  assert (forall A (l : list A), filter (fun _ => true) l = l) as Ft. { intros A l. induction l as [|x l IH]; [reflexivity|]. cbn. now rewrite IH. }
  rewrite Ft, combine_length, seq_length, Nat.min_id. rewrite (run_file c os U N). destruct U as (Us & _ & _ & B).
  pose proof (lines_twice (buf c) (line_sep c) (map (body c) (logged os)) [] (map (body c) l1) (map (body c) l2) B Us (bodies c _ H)) as T.
  rewrite map_length, app_nil_r in T. apply T.
  - eapply torn_nil; [exact Us|apply apart_nil].
  - now rewrite El, map_app.
  - intros E0. apply map_eq_nil in E0. congruence.
  - now rewrite <- extent_body.
Qed.
(** the settings of [BinaryFileStore] with numbers, for a size of reads *)
Definition numbers (b : nat) : cfg := {| line_sep := [10; 7; 10; 1]; delim := [9]; line_no := true; content_hash := false; buf := b |}.
Definition keys (b : nat) : cfg := {| line_sep := [10; 7; 10; 1]; delim := [9]; line_no := false; content_hash := false; buf := b |}.
Lemma apart_check sep x : (fix go (y : bytes) : bool := match y with [] => true | _ :: y' => negb (starts sep (y ++ sep)) && go y' end) x = true -> sep <> [] -> apart sep x.
Proof.
  intros H N. induction x as [|c x IH]; [apply apart_nil|]. apply andb_true_iff in H. destruct H as [H1 H2]. specialize (IH H2). intros a b E.
  destruct a as [|y a].
  - exfalso. apply negb_true_iff in H1. cbn [app] in E, H1. rewrite E in H1. assert (starts sep (sep ++ b) = true) as F by (apply starts_spec; eauto). congruence.
  - injection E as _ E. now apply (IH a b).
Qed.
Lemma apart_repeat x m : forall sep, sep <> [] -> ~ In x sep -> apart sep (repeat x m).
Proof.
  intros sep N Hx. apply apart_check; [|exact N]. induction m as [|m IH]; [reflexivity|]. cbn [repeat]. rewrite IH, andb_true_r.
  destruct sep as [|y sep]; [congruence|]. cbn [app starts]. destruct (Nat.eqb_spec y x) as [->|D]; [exfalso; apply Hx; now left|reflexivity].
Qed.
(** one record of the right length is enough, whatever the size of the reads *)
Theorem C84_twice_witness b : 4 <= b -> 1 < length (fst (iterate_nos (numbers b) (run (numbers b) [Put [] (repeat 65 (b - 4))]) None None)).
Proof.
  intros Hb. assert (usable (numbers b)) as U by (repeat split; try discriminate; cbn; lia).
  assert (no_crash [Put [] (repeat 65 (b - 4))]) as Nc by (intros k v n [F|[]]; discriminate).
  refine (C84_twice_refuted (numbers b) [Put [] (repeat 65 (b - 4))] [([], repeat 65 (b - 4))] [] U eq_refl Nc _ _ _ _); cbn [logged fold_left put_by app].
  - constructor; [|constructor]. apply apart_repeat; [discriminate|]. cbn. intuition discriminate.
  - reflexivity.
  - discriminate.
  - unfold extent, record_of. cbn [numbers line_no line_sep buf map concat fst snd]. rewrite app_nil_r, app_length, repeat_length. cbn [length].
    replace (b - 4 + 4) with b by lia. apply Nat.mod_same. lia.
Qed.
(** A value that has the separator in it is read as two; one that ends with half of a separator that repeats itself (as that of the helper does:
    16 bytes twice) loses this half, which is then put before the next record. *)
Theorem C84_separator_refuted : exists v w, let f := run (numbers 64) [Put [] v; Put [] w] in
  fst (iterate_nos (numbers 64) f None None) = [(1, [5]); (2, [6]); (3, w)].
Proof. exists ([5] ++ [10; 7; 10; 1] ++ [6]), [8]. reflexivity. Qed.
Theorem C84_half_separator_refuted : exists c v w, usable c /\ line_no c = true /\
  fst (iterate_nos c (run c [Put [] (v ++ [1; 2]); Put [] w]) None None) = [(1, v); (2, [1; 2] ++ w)].
Proof. exists {| line_sep := [1; 2; 1; 2]; delim := [9]; line_no := true; content_hash := false; buf := 64 |}, [5], [6]. repeat split; try discriminate. cbn. lia. Qed.
(** After a crash in a write the next record is put behind the part that was written: it is not found under its number, nor under its key. *)
Theorem C84_torn_refuted : exists os v, get_no (numbers 64) (run (numbers 64) (os ++ [Put [] v])) 2 <> Some v /\
  get_no (numbers 64) (run (numbers 64) (os ++ [Put [] v])) 3 = None /\ os = [Put [] [5]; Crash [] [6; 6] 1].
Proof. exists [Put [] [5]; Crash [] [6; 6] 1], [8]. repeat split; discriminate. Qed.
(** If the key was not written completely, no key is found any more. *)
Theorem C84_torn_key_refuted : exists os, logged os = [([2], [5])] /\ forall k, get_key (keys 64) (run (keys 64) os) k = None.
Proof. exists [Put [2] [5]; Crash [3; 3] [6] 1]. split; reflexivity. Qed.
(** With hashes (the default) every write fails, after most of the record was written. *)
Theorem C84_hash_refuted c f k v : content_hash c = true -> snd (put c f k v) = false /\ length f + length v + length (delim c) <= length (fst (put c f k v)).
Proof.
  intros H. unfold put. rewrite H. cbn [fst snd]. split; [reflexivity|]. destruct (line_no c); rewrite !app_length; lia.
Qed.
(** Asked for a prefix, an iteration fails at the first record of another; asked for an end, it stops at the first key beyond. *)
Theorem C84_prefix_refuted : exists os p, logged os = [([2], [5]); ([3], [6])] /\ iterate_keys (keys 64) (run (keys 64) os) None None (Some p) = ([], Error) /\ p = [3].
Proof. exists [Put [2] [5]; Put [3] [6]], [3]. repeat split. Qed.
Theorem C84_end_refuted : exists os, logged os = [([4], [5]); ([2], [6])] /\ iterate_keys (keys 64) (run (keys 64) os) None (Some [3]) None = ([], Complete).
Proof. exists [Put [4] [5]; Put [2] [6]]. split; reflexivity. Qed.
(** Asking a directory for a record far beyond the end makes it longer; after a restart, records are put where they are not found. *)
Theorem C84_beyond_refuted : exists k, csize 5 (crun 5 [CPut 7; CGet k]) = 5 /\
  let d := crun 5 [CPut 7; CGet k; CReopen; CPut 8] in snd (cget 5 2 d) = None /\ snd (cget 5 (csize 5 d) d) = Some 8 /\ csize 5 d = 6 /\ length (call d) = 2.
Proof. exists 6. repeat split. Qed.
(** From 0 on, the numbers are too small by one, within one file. *)
Theorem C84_zero_refuted : snd (fst (crange 5 (Some 0) (Some 2) (crun 5 [CPut 7; CPut 8; CPut 9]))) = [(0, 7); (1, 8)] /\
  snd (fst (crange 5 (Some 1) (Some 2) (crun 5 [CPut 7; CPut 8; CPut 9]))) = [(1, 7); (2, 8)].
Proof. split; reflexivity. Qed.

(** ** The hypotheses are met *)
Definition ex_os : list op := [Put [7] [7]; Reset; Put [2] [5; 10; 7]; Put [3] []; Put [2] [6]].
Lemma ex_uneven l c : (forallb (fun i => negb (extent c (firstn i l) mod buf c =? 0)) (seq 1 (length l))) = true -> uneven c l.
Proof.
  intros H l1 l2 -> N E. rewrite forallb_forall in H. specialize (H (length l1)). rewrite firstn_app, firstn_all, Nat.sub_diag, firstn_O, app_nil_r, E in H.
  assert (In (length l1) (seq 1 (length (l1 ++ l2)))) as Hi. { apply in_seq. rewrite app_length. destruct l1; [congruence|cbn; lia]. }
  specialize (H Hi). discriminate.
Qed.
Example C84_keys_met : usable (keys 8) /\ no_crash ex_os /\ Forall (plain (keys 8)) (logged ex_os) /\ uneven (keys 8) (logged ex_os) /\
  logged ex_os = [([2], [5; 10; 7]); ([3], []); ([2], [6])] /\ get_key (keys 8) (run (keys 8) ex_os) [2] = Some [6].
Proof.
  split; [repeat split; try discriminate; cbn; lia|]. split; [intros k v n F; cbn in F; intuition discriminate|].
  split; [repeat constructor; apply apart_check; solve [reflexivity|discriminate]|]. split; [apply ex_uneven; reflexivity|]. split; reflexivity.
Qed.
Example C84_numbers_met : usable (numbers 9) /\ Forall (plain (numbers 9)) (logged ex_os) /\ uneven (numbers 9) (logged ex_os) /\
  get_no (numbers 9) (run (numbers 9) ex_os) 3 = Some [6] /\ plain (numbers 9) ([], [9; 9]) /\
  fst (iterate_nos (numbers 9) (run (numbers 9) (ex_os ++ [Crash [] [9; 9] 4])) None None) = [(1, [5; 10; 7]); (2, []); (3, [6]); (4, [9; 9; 10; 7])].
Proof.
  split; [repeat split; try discriminate; cbn; lia|]. split; [repeat constructor; apply apart_check; solve [reflexivity|discriminate]|].
  split; [apply ex_uneven; reflexivity|]. split; [reflexivity|]. split; [apply apart_check; [reflexivity|discriminate]|reflexivity].
Qed.
Definition ex_cos : list (cop nat) := [CPut 1; CPut 2; CPut 3; CGet 2; CReopen; CRange (Some 2) None; CPut 4; CPut 5; CRange (Some 1) (Some 5); CGet 5].
Example C84_directory_met : all_within [] ex_cos /\ clogged ex_cos = [1; 2; 3; 4; 5] /\ files (crun 2 ex_cos) = [(1, [1; 2]); (3, [3; 4]); (5, [5])] /\
  crange 2 (Some 2) (Some 5) (crun 2 ex_cos) = (crun 2 ex_cos, [(2, 2); (3, 3); (4, 4); (5, 5)], Complete).
Proof. split; [cbn; lia|]. repeat split. Qed.

Print Assumptions C84_keys_partial.
Print Assumptions C84_numbers_partial.
Print Assumptions C84_crash_partial.
Print Assumptions C84_directory_partial.
Print Assumptions C84_twice_refuted.
Print Assumptions C84_twice_witness.
Print Assumptions C84_beyond_refuted.
