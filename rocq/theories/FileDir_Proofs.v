(** Proofs about the log in a directory of files. *)
From Coq Require Import List Arith Bool Lia.
Import ListNotations.
From Verif Require Import File_Model File_Spec.

Section Dir.
  Context {V : Type}.
  Variable n : nat.
  Hypothesis Hn : 0 < n.
  Notation num i l := (combine (seq i (length l)) l).

  (** files of [n] records each, the last one may be shorter *)
  Fixpoint lay (i : nat) (X : list (list V)) : list (nat * list V) := match X with [] => [] | l :: X' => (i, l) :: lay (i + n) X' end.
  Lemma lay_create : forall X i j, j < length X -> create (i + j * n) (lay i X) = lay i X.
  Proof.
    induction X as [|l X IH]; intros i j H; cbn in H; [lia|]. cbn [lay create]. destruct j as [|j].
    - rewrite Nat.add_0_r. destruct (Nat.ltb_spec i i); [lia|]. now rewrite Nat.eqb_refl.
    - destruct (Nat.ltb_spec (i + S j * n) i); [lia|]. destruct (Nat.eqb_spec (i + S j * n) i); [lia|]. f_equal.
      replace (i + S j * n) with ((i + n) + j * n) by lia. apply IH. lia.
  Qed.
  Lemma lay_new : forall X i, create (i + length X * n) (lay i X) = lay i (X ++ [[]]).
  Proof.
    induction X as [|l X IH]; intros i; cbn [lay create length app]; [f_equal; f_equal; lia|].
    destruct (Nat.ltb_spec (i + S (length X) * n) i); [lia|]. destruct (Nat.eqb_spec (i + S (length X) * n) i); [lia|]. f_equal.
    replace (i + S (length X) * n) with ((i + n) + length X * n) by lia. apply IH.
  Qed.
  Lemma lay_content : forall X i j, content (i + j * n) (lay i X) = nth j X [].
  Proof.
    induction X as [|l X IH]; intros i j; [now destruct j|]. cbn [lay content]. destruct j as [|j]; cbn [nth].
    - rewrite Nat.add_0_r. now rewrite Nat.eqb_refl.
    - destruct (Nat.eqb_spec i (i + S j * n)); [lia|]. replace (i + S j * n) with ((i + n) + j * n) by lia. apply IH.
  Qed.
  Lemma lay_append v l : forall cs i, append (i + length cs * n) v (lay i (cs ++ [l])) = lay i (cs ++ [l ++ [v]]).
  Proof.
    induction cs as [|c cs IH]; intros i; cbn [lay append length app].
    - rewrite Nat.add_0_r. now rewrite Nat.eqb_refl.
    - destruct (Nat.eqb_spec i (i + S (length cs) * n)); [lia|]. f_equal. replace (i + S (length cs) * n) with ((i + n) + length cs * n) by lia. apply IH.
  Qed.
  Lemma lay_last l : forall cs i x, last (lay i (cs ++ [l])) x = (i + length cs * n, l).
  Proof.
    induction cs as [|c cs IH]; intros i x; cbn [lay length app last]; [f_equal; lia|].
    destruct (lay (i + n) (cs ++ [l])) eqn:E; [destruct cs; discriminate|]. rewrite <- E, IH. f_equal. lia.
  Qed.
  Lemma lay_length : forall X i, length (lay i X) = length X.
  Proof. induction X; intros; cbn; auto. Qed.
  Lemma lay_snd : forall X i, map snd (lay i X) = X.
  Proof. induction X; intros; cbn; f_equal; auto. Qed.

  (** a directory that holds [L] *)
  Definition holds (d : dir V) (L : list V) : Prop := exists cs l,
    files d = lay 1 (cs ++ [l]) /\ Forall (fun c => length c = n) cs /\ length l <= n /\ (cs = [] \/ l <> []) /\
    current d = 1 + length cs * n /\ item d = S (length l) /\ L = concat cs ++ l.
  Lemma full_length cs : Forall (fun c : list V => length c = n) cs -> length (concat cs) = length cs * n.
  Proof. induction 1 as [|c cs H _ IH]; cbn; [reflexivity|]. rewrite app_length. lia. Qed.
  Lemma fresh_holds : holds fresh [].
  Proof. exists [], []. cbn. repeat split; auto. lia. Qed.
  Lemma put_holds v d L : holds d L -> holds (cput n v d) (L ++ [v]).
  Proof.
    intros (cs & l & Ef & Hc & Hl & Hx & Ec & Ei & ->). unfold cput. rewrite Ei. destruct (Nat.ltb_spec n (S (length l))) as [G|G].
    - assert (length l = n) as El by lia. exists (cs ++ [l]), [v]. cbn [files current item use]. rewrite Ef, Ec.
      assert (1 + length cs * n + n = 1 + length (cs ++ [l]) * n) as E by (rewrite app_length; cbn; lia). rewrite E, lay_new, lay_append. cbn [app length].
      repeat split; auto.
      + apply Forall_app. auto.
      + right. discriminate.
      + rewrite concat_app. cbn [concat]. now rewrite app_nil_r.
    - exists cs, (l ++ [v]). rewrite Ef, Ec. cbn [files current item]. rewrite lay_append, app_length. cbn [length]. repeat split; auto; try lia.
      + right. intros E. apply app_eq_nil in E. destruct E. discriminate.
      + now rewrite app_assoc.
  Qed.
  Lemma reopen_holds d L : holds d L -> holds (reopen d) L.
  Proof.
    intros (cs & l & Ef & Hc & Hl & Hx & Ec & Ei & ->). exists cs, l. unfold reopen, use, latest. cbn [files current item]. rewrite Ef.
    assert (forall x : nat, match lay 1 (cs ++ [l]) with [] => x | _ => fst (last (lay 1 (cs ++ [l])) (1, [])) end = 1 + length cs * n) as E.
    { intros x. rewrite lay_last. destruct (lay 1 (cs ++ [l])) eqn:E; [destruct cs; discriminate|reflexivity]. }
    rewrite E, lay_create by (rewrite app_length; cbn; lia). rewrite lay_content. rewrite app_nth2, Nat.sub_diag by lia. cbn [nth]. repeat split; auto.
  Qed.
  Lemma size_holds d L : holds d L -> csize n d = length L.
  Proof.
    intros (cs & l & Ef & Hc & Hl & Hx & Ec & Ei & ->). unfold csize. rewrite Ef.
    destruct (lay 1 (cs ++ [l])) eqn:E; [destruct cs; discriminate|]. rewrite <- E, lay_last, lay_length, !app_length, full_length by auto. cbn. lia.
  Qed.
  Lemma location_spec k : 1 <= k -> location n k = (1 + ((k - 1) / n) * n, (k - 1) mod n + 1).
  Proof.
    intros Hk. unfold location. destruct k as [|k]; [lia|]. replace (S k - 1) with k by lia.
    pose proof (Nat.div_mod k n) as D. pose proof (Nat.mod_upper_bound k n) as B. set (q := k / n) in *. set (r := k mod n) in *.
    assert (S k = n * q + S r) as E by lia. destruct (Nat.eq_dec (S r) n) as [F|F].
    - assert (S k mod n = 0) as ->. { rewrite E, F. replace (n * q + n) with ((q + 1) * n) by lia. apply Nat.mod_mul. lia. }
      f_equal; lia.
    - assert (S k mod n = S r) as ->. { symmetry. apply (Nat.mod_unique (S k) n q); lia. }
      f_equal; lia.
  Qed.
  Lemma nth_full : forall cs l j i, Forall (fun c : list V => length c = n) cs -> length l <= n -> j * n + i < length (concat cs ++ l) -> i < n ->
    j < length (cs ++ [l]) /\ nth_error (concat cs ++ l) (j * n + i) = nth_error (nth j (cs ++ [l]) []) i.
  Proof.
    induction cs as [|c cs IH]; intros l j i H Hl L Hi.
    - cbn [concat app] in *. destruct j as [|j]; [cbn; split; [lia|reflexivity]|]. exfalso. cbn in L. lia.
    - inversion H as [|? ? Ec Hc]; subst. cbn [concat app length nth] in *. destruct j as [|j].
      + split; [lia|]. cbn [Nat.mul Nat.add]. rewrite <- app_assoc. rewrite nth_error_app1 by lia. reflexivity.
      + rewrite <- app_assoc, app_length in L. destruct (IH l j i Hc Hl) as [J E]; [lia|lia|]. split; [lia|]. rewrite <- app_assoc, nth_error_app2 by lia.
        replace (S j * length c + i - length c) with (j * length c + i) by lia. exact E.
  Qed.
  Lemma where_is cs l k : Forall (fun c : list V => length c = n) cs -> length l <= n -> (cs = [] \/ l <> []) -> 1 <= k -> k <= length (concat cs ++ l) ->
    (k - 1) / n < length (cs ++ [l]).
  Proof.
    intros Hc Hl Hx H1 H2. pose proof (Nat.div_mod (k - 1) n) as D. pose proof (Nat.mod_upper_bound (k - 1) n) as B.
    destruct (nth_full cs l ((k - 1) / n) ((k - 1) mod n) Hc Hl) as [J _]; lia.
  Qed.
  Lemma get_holds k d L : holds d L -> k <= length L -> cget n k d = (d, nth_record k L).
  Proof.
    intros (cs & l & Ef & Hc & Hl & Hx & Ec & Ei & ->) Hk. unfold cget, nth_record at 1, with_files. destruct k as [|k].
    - unfold nth_record. cbn [location fst snd]. rewrite Ef. change 1 with (1 + 0 * n) at 1. rewrite lay_create by (rewrite app_length; cbn; lia). rewrite <- Ef.
      now destruct d.
    - rewrite (location_spec (S k)) by lia. cbn [fst snd]. rewrite Ef, lay_create by (apply where_is; auto; lia). rewrite lay_content, <- Ef.
      replace (S k - 1) with k by lia. rewrite Nat.add_1_r. unfold nth_record. assert (n <> 0) as Hn0 by lia.
      pose proof (Nat.div_mod k n Hn0) as D. pose proof (Nat.mod_upper_bound k n Hn0) as B. rewrite Nat.mul_comm in D.
      destruct (nth_full cs l (k / n) (k mod n) Hc Hl) as [_ E]; [rewrite <- D; lia|lia|]. rewrite <- E, <- D. now destruct d.
  Qed.
  Lemma all_holds d L : holds d L -> call d = num 1 L.
  Proof.
    intros (cs & l & Ef & _ & _ & _ & _ & _ & ->). unfold call. rewrite Ef, lay_snd, concat_app. cbn [concat]. now rewrite app_nil_r.
  Qed.

  (** ** Ranges *)
  Lemma combine_nil_r {A B} : forall l : list A, combine l (@nil B) = [].
  Proof. destruct l; reflexivity. Qed.
  Lemma filter_hi hi : forall (l : list V) s, filter (fun x => fst x <=? hi) (num s l) = combine (seq s (S hi - s)) (firstn (S hi - s) l).
  Proof.
    induction l as [|x l IH]; intros s; [now rewrite firstn_nil, !combine_nil_r|]. cbn [length seq combine filter fst]. rewrite IH.
    destruct (Nat.leb_spec s hi) as [H|H].
    - replace (S hi - s) with (S (S hi - S s)) by lia. reflexivity.
    - replace (S hi - s) with 0 by lia. replace (S hi - S s) with 0 by lia. reflexivity.
  Qed.
  Lemma in_num (l : list V) s x : In x (num s l) -> s <= fst x < s + length l.
  Proof. intros H. destruct x as [k v]. apply in_combine_l in H. apply in_seq in H. cbn. lia. Qed.
  Lemma filter_lohi lo hi : forall (l : list V) s, s <= lo ->
    filter (fun x => (lo <=? fst x) && (fst x <=? hi)) (num s l) = combine (seq lo (S hi - lo)) (firstn (S hi - lo) (skipn (lo - s) l)).
  Proof.
    induction l as [|x l IH]; intros s H; [now rewrite skipn_nil, firstn_nil, !combine_nil_r|]. destruct (Nat.eq_dec s lo) as [->|D].
    - rewrite Nat.sub_diag. cbn [skipn]. rewrite <- filter_hi. apply filter_ext_in. intros y Hy. apply in_num in Hy.
      destruct (Nat.leb_spec lo (fst y)); [reflexivity|lia].
    - cbn [length seq combine filter fst]. destruct (Nat.leb_spec lo s); [lia|]. cbn [andb]. rewrite IH by lia. now replace (lo - s) with (S (lo - S s)) by lia.
  Qed.
  Lemma shift_num i Q : 1 <= i -> forall (l : list V) s, 1 <= s ->
    map (fun x => (i + fst x - 1, snd x)) (filter (fun x => Q (fst x)) (num s l)) = filter (fun x => Q (S (fst x) - i)) (num (i + s - 1) l).
  Proof.
    intros Hi. induction l as [|x l IH]; intros s Hs; [reflexivity|]. cbn [length seq combine filter fst].
    replace (S (i + s - 1) - i) with s by lia. specialize (IH (S s)). replace (i + S s - 1) with (S (i + s - 1)) in IH by lia.
    destruct (Q s); cbn [map fst snd]; rewrite IH by lia; reflexivity.
  Qed.
  Lemma map_snd_combine : forall (l : list V) (s : list nat), length l <= length s -> map snd (combine s l) = l.
  Proof. induction l as [|x l IH]; intros [|y s] H; cbn in *; auto; [lia|]. f_equal. apply IH. lia. Qed.
  (** the numbered records, file by file *)
  Lemma num_files l : forall cs a, Forall (fun c : list V => length c = n) cs ->
    num (1 + a * n) (concat (cs ++ [l])) = concat (map (fun j => num (1 + (a + j) * n) (nth j (cs ++ [l]) [])) (seq 0 (length (cs ++ [l])))).
  Proof.
    induction cs as [|c cs IH]; intros a H.
    - cbn. rewrite !app_nil_r. now rewrite Nat.add_0_r.
    - inversion H as [|? ? Ec Hc]; subst. cbn [app concat length seq map nth]. rewrite Nat.add_0_r, <- (seq_shift (length (cs ++ [l])) 0), map_map, (app_length c), seq_app.
      assert (forall (a b : list nat) (x y : list V), length a = length x -> combine (a ++ b) (x ++ y) = combine a x ++ combine b y) as Ca.
      { intros p q x. revert p. induction x as [|u x IHx]; intros [|w p] y E; cbn in *; try discriminate; [reflexivity|]. f_equal. apply IHx. lia. }
      rewrite Ca by apply seq_length. f_equal. replace (1 + a * length c + length c) with (1 + S a * length c) by lia. rewrite (IH (S a)) by auto.
      f_equal. apply map_ext. intros j. now replace (S a + j) with (a + S j) by lia.
  Qed.
  (** what one file contributes to a walk *)
  Definition out (j1 j2 bo eo : nat) (X : list (list V)) (j : nat) : list (nat * V) :=
    map (fun x => (1 + j * n + fst x - 1, snd x))
      (if j =? j1 then part (Some bo) None (nth j X []) else if j =? j2 then part None (Some eo) (nth j X []) else part (Some 1) (Some n) (nth j X [])).
  Lemma walk_spec X j1 j2 bo eo : j2 < length X -> forall fuel j, S j2 - j < fuel ->
    walk n fuel (1 + j * n) (1 + j1 * n) (1 + j2 * n) bo eo (lay 1 X) = (lay 1 X, concat (map (out j1 j2 bo eo X) (seq j (S j2 - j)))).
  Proof.
    intros H2. induction fuel as [|f IH]; intros j Hf; [lia|]. cbn [walk]. destruct (Nat.ltb_spec (1 + j2 * n) (1 + j * n)) as [L|L].
    - assert (j2 < j) as L' by nia. replace (S j2 - j) with 0 by lia. reflexivity.
    - assert (j <= j2) as L' by nia. rewrite lay_create by lia. replace (1 + j * n + n) with (1 + S j * n) by lia. rewrite IH by lia. cbn [fst snd].
      replace (S j2 - j) with (S (S j2 - S j)) by lia. cbn [seq map concat]. rewrite lay_content. unfold out at 2.
      assert (forall i, (1 + j * n =? 1 + i * n) = (j =? i)) as E.
      { intros i. destruct (Nat.eqb_spec j i) as [->|D]; [apply Nat.eqb_refl|]. apply Nat.eqb_neq. nia. }
      now rewrite !E.
  Qed.
  Lemma filter_concat {A} (f : A -> bool) : forall ls, filter f (concat ls) = concat (map (filter f) ls).
  Proof. induction ls as [|l ls IH]; [reflexivity|]. cbn. now rewrite filter_app, IH. Qed.
  Lemma concat_nils {A B} (f : A -> list B) : forall l, (forall x, In x l -> f x = []) -> concat (map f l) = [].
  Proof. induction l as [|x l IH]; intros H; [reflexivity|]. cbn. rewrite H by now left. apply IH. intros y Hy. apply H. now right. Qed.
  Lemma filter_none {A} (f : A -> bool) : forall l, (forall x, In x l -> f x = false) -> filter f l = [].
  Proof. induction l as [|x l IH]; intros H; [reflexivity|]. cbn. rewrite H by now left. apply IH. intros y Hy. apply H. now right. Qed.

  Lemma nth_short cs l j : Forall (fun c : list V => length c = n) cs -> length l <= n -> length (nth j (cs ++ [l]) []) <= n.
  Proof.
    intros Hc Hl. destruct (le_lt_dec (length (cs ++ [l])) j) as [L|L]; [rewrite nth_overflow by lia; cbn; lia|].
    assert (Forall (fun c : list V => length c <= n) (cs ++ [l])) as F. { apply Forall_app. split; [eapply Forall_impl; [|exact Hc]; cbn; lia|auto]. }
    rewrite Forall_forall in F. apply F. now apply nth_In.
  Qed.
  (** only the files between the first and the last matter *)
  Lemma numbered_files cs l b e : Forall (fun c : list V => length c = n) cs -> length l <= n -> 1 <= b -> b <= e -> e <= length (concat cs ++ l) -> (cs = [] \/ l <> []) ->
    numbered (concat cs ++ l) b e =
    concat (map (fun j => filter (fun x => (b <=? fst x) && (fst x <=? e)) (num (1 + j * n) (nth j (cs ++ [l]) []))) (seq ((b - 1) / n) (S ((e - 1) / n) - (b - 1) / n))).
  Proof.
    intros Hc Hl Hb Hbe He Hx. unfold numbered. replace (concat cs ++ l) with (concat (cs ++ [l])) by (rewrite concat_app; cbn; now rewrite app_nil_r).
    pose proof (num_files l cs 0 Hc) as Ef. cbn [Nat.add Nat.mul] in Ef. rewrite Ef, filter_concat, map_map.
    pose proof (where_is cs l e Hc Hl Hx ltac:(lia) He) as H2. set (j1 := (b - 1) / n). set (j2 := (e - 1) / n) in *.
    assert (j1 <= j2) as J by (apply Nat.div_le_mono; lia).
    replace (length (cs ++ [l])) with (j1 + ((S j2 - j1) + (length (cs ++ [l]) - S j2))) by lia. rewrite (seq_app j1), (seq_app (S j2 - j1)), !map_app, !concat_app.
    pose proof (Nat.div_mod (b - 1) n ltac:(lia)) as Db. pose proof (Nat.mod_upper_bound (b - 1) n ltac:(lia)) as Bb. fold j1 in Db.
    pose proof (Nat.div_mod (e - 1) n ltac:(lia)) as De. pose proof (Nat.mod_upper_bound (e - 1) n ltac:(lia)) as Be. fold j2 in De.
    rewrite (concat_nils _ (seq 0 j1)), (concat_nils _ (seq (0 + j1 + (S j2 - j1)) _)).
    - rewrite app_nil_r. reflexivity.
    - intros j Hj. apply in_seq in Hj. apply filter_none. intros x Hi. apply in_num in Hi. destruct (Nat.leb_spec (fst x) e); [|apply andb_false_r]. nia.
    - intros j Hj. apply in_seq in Hj. apply filter_none. intros x Hi. apply in_num in Hi. pose proof (nth_short cs l j Hc Hl).
      destruct (Nat.leb_spec b (fst x)); [|reflexivity]. nia.
  Qed.
  Lemma part_spec b e (l : list V) :
    part b e l = filter (fun x => match b with Some b => b <=? fst x | None => true end && match e with Some e => fst x <=? e | None => true end) (num 1 l).
  Proof. reflexivity. Qed.

  Lemma with_same (d : dir V) : with_files (files d) d = d.
  Proof. now destruct d. Qed.
  (** both ways of reading a range, for numbers that are there *)
  Lemma range_core d L b e : holds d L -> 1 <= b -> b <= e -> e <= length L ->
    (let (first, bo) := location n b in let (lst, eo) := location n e in
     if first =? lst then
       if eo <? bo then (d, [], Error)
       else (with_files (create first (files d)) d,
             combine (seq b (S e - b)) (map snd (part (Some bo) (Some eo) (content first (create first (files d))))), Complete)
     else let (fs, o) := walk n (S lst) first first lst bo eo (files d) in (with_files fs d, o, Complete)) = (d, numbered L b e, Complete).
  Proof.
    intros (cs & l & Ef & Hc & Hl & Hx & Ec & Ei & ->) Hb Hbe He. rewrite !location_spec by lia.
    assert (1 <= e) as He1 by lia. assert (b <= length (concat cs ++ l)) as Hb2 by lia.
    pose proof (where_is cs l e Hc Hl Hx He1 He) as H2. pose proof (where_is cs l b Hc Hl Hx Hb Hb2) as H1.
    rewrite (numbered_files cs l b e) by auto.
    assert (n <> 0) as Hn0 by lia.
    pose proof (Nat.div_mod (b - 1) n Hn0) as Db. pose proof (Nat.mod_upper_bound (b - 1) n Hn0) as Bb.
    pose proof (Nat.div_mod (e - 1) n Hn0) as De. pose proof (Nat.mod_upper_bound (e - 1) n Hn0) as Be.
    assert ((b - 1) / n <= (e - 1) / n) as J by (apply Nat.div_le_mono; lia).
    set (j1 := (b - 1) / n) in *. set (j2 := (e - 1) / n) in *. set (bo := (b - 1) mod n) in *. set (eo := (e - 1) mod n) in *. clearbody j1 j2 bo eo.
    rewrite Ef. destruct (Nat.eqb_spec (1 + j1 * n) (1 + j2 * n)) as [E|E].
    - assert (j1 = j2) as <- by nia. destruct (Nat.ltb_spec (eo + 1) (bo + 1)) as [F|F]; [exfalso; nia|].
      rewrite lay_create, lay_content by auto. rewrite <- Ef, with_same. f_equal. f_equal. replace (S j1 - j1) with 1 by lia. cbn [seq map concat]. rewrite app_nil_r.
      rewrite part_spec, filter_lohi by lia. rewrite filter_lohi by lia. f_equal. rewrite map_snd_combine.
      + f_equal; [lia|]. f_equal. lia.
      + rewrite firstn_length, seq_length. lia.
    - assert (j1 < j2) as J' by nia. rewrite walk_spec by (auto; nia). rewrite <- Ef, with_same. f_equal. f_equal. f_equal. apply map_ext_in. intros j Hj. apply in_seq in Hj.
      unfold out. pose proof (nth_short cs l j Hc Hl) as Hs.
      assert (forall Q : nat -> bool, map (fun x => (1 + j * n + fst x - 1, snd x)) (filter (fun x => Q (fst x)) (num 1 (nth j (cs ++ [l]) []))) =
        filter (fun x => Q (S (fst x) - (1 + j * n))) (num (1 + j * n) (nth j (cs ++ [l]) []))) as Sh.
      { intros Q. rewrite shift_num by lia. f_equal. f_equal. f_equal. lia. }
      destruct (Nat.eqb_spec j j1) as [->|D1]; [|destruct (Nat.eqb_spec j j2) as [->|D2]]; rewrite part_spec.
      + rewrite (Sh (fun k => (bo + 1 <=? k) && true)). apply filter_ext_in. intros x Hi. apply in_num in Hi.
        destruct (Nat.leb_spec (bo + 1) (S (fst x) - (1 + j1 * n))), (Nat.leb_spec b (fst x)), (Nat.leb_spec (fst x) e); cbn; try reflexivity; nia.
      + rewrite (Sh (fun k => true && (k <=? eo + 1))). apply filter_ext_in. intros x Hi. apply in_num in Hi.
        destruct (Nat.leb_spec (S (fst x) - (1 + j2 * n)) (eo + 1)), (Nat.leb_spec b (fst x)), (Nat.leb_spec (fst x) e); cbn; try reflexivity; nia.
      + rewrite (Sh (fun k => (1 <=? k) && (k <=? n))). apply filter_ext_in. intros x Hi. apply in_num in Hi.
        destruct (Nat.leb_spec 1 (S (fst x) - (1 + j * n))), (Nat.leb_spec (S (fst x) - (1 + j * n)) n), (Nat.leb_spec b (fst x)), (Nat.leb_spec (fst x) e); cbn; try reflexivity; nia.
  Qed.
  (** asked for with numbers that are there *)
  Lemma range_ok d L b e : holds d L -> b <> Some 0 -> e <> Some 0 -> match b with Some b => b <= length L | None => True end ->
    match e with Some e => e <= length L | None => True end -> valid_range b e = true ->
    crange n b e d = (d, numbered L (match b with Some b => b | None => 1 end) (match e with Some e => e | None => length L end), Complete).
  Proof.
    intros H Nb Ne Hb He Hv. destruct b as [[|b]|]; [congruence| |]; (destruct e as [[|e]|]; [congruence| |]); unfold crange; rewrite ?Hv; cbn [negb];
      rewrite ?(size_holds d L H).
    - cbn in Hv. apply Nat.leb_le in Hv. destruct (Nat.eqb_spec (length L) 0); [lia|]. destruct (Nat.eqb_spec b e) as [<-|D].
      + rewrite (get_holds (S b) d L) by auto. unfold nth_record. destruct (nth_error L b) as [v|] eqn:E; [|apply nth_error_None in E; lia]. f_equal. f_equal.
        unfold numbered. rewrite filter_lohi by lia. replace (S (S b) - S b) with 1 by lia. replace (S b - 1) with b by lia.
        apply nth_error_split in E. destruct E as (l1 & l2 & -> & <-). rewrite skipn_app, skipn_all, Nat.sub_diag. reflexivity.
      + apply range_core; auto; lia.
    - destruct (Nat.eqb_spec (length L) 0); [lia|]. apply range_core; auto; lia.
    - destruct (Nat.eqb_spec (length L) 0); [lia|]. apply range_core; auto; lia.
    - rewrite (all_holds d L H). f_equal. f_equal. unfold numbered. rewrite filter_lohi by lia. cbn [Nat.sub skipn]. rewrite Nat.sub_0_r. now rewrite firstn_all.
  Qed.
  Lemma range_holds d L b e : holds d L -> within (length L) (@CRange V b e) -> fst (fst (crange n b e d)) = d.
  Proof.
    intros H [He Hb]. destruct (valid_range b e) eqn:Hv.
    2:{ destruct b as [[|b]|], e as [[|e]|]; cbn in Hv; try discriminate. unfold crange, valid_range. rewrite Hv. reflexivity. }
    assert (b = Some 0 \/ e = Some 0 \/ (b <> Some 0 /\ e <> Some 0)) as [->|[->|[N1 N2]]].
    { destruct b as [[|b]|], e as [[|e]|]; auto; right; right; split; discriminate. }
    - destruct e as [[|e]|]; [reflexivity| |reflexivity]. unfold crange. cbn [valid_range negb]. rewrite (size_holds d L H). destruct (Nat.eqb_spec (length L) 0); [reflexivity|].
      change (location n 0) with (1, 0). destruct H as (cs & l & Ef & Hc & Hl & Hx & Ec & Ei & ->). rewrite location_spec by lia.
      assert (1 <= S e) as H1 by lia. pose proof (where_is cs l (S e) Hc Hl Hx H1 He) as H2. set (j2 := (S e - 1) / n) in *. set (r := (S e - 1) mod n).
      destruct (1 =? 1 + j2 * n).
      + destruct (r + 1 <? 0); [reflexivity|]. cbn [fst]. rewrite Ef. change 1 with (1 + 0 * n) at 1.
        rewrite lay_create by (rewrite app_length; cbn; lia). rewrite <- Ef. apply with_same.
      + rewrite Ef. pose proof (walk_spec (cs ++ [l]) 0 j2 0 (r + 1) H2 (S (1 + j2 * n)) 0) as W. cbn [Nat.mul Nat.add] in W. cbn [Nat.add]. rewrite W by nia.
        cbn [fst]. rewrite <- Ef. apply with_same.
    - destruct b as [[|b]|]; try reflexivity. unfold crange. cbn [valid_range negb]. destruct (csize n d =? 0); [reflexivity|].
      change (location n 0) with (1, 0). destruct H as (cs & l & Ef & Hc & Hl & Hx & Ec & Ei & ->). rewrite location_spec by lia.
      assert (1 <= S b) as H1 by lia. pose proof (where_is cs l (S b) Hc Hl Hx H1 Hb) as H2. set (j1 := (S b - 1) / n) in *. set (r := (S b - 1) mod n).
      destruct (Nat.eqb_spec (1 + j1 * n) 1) as [E|E].
      + destruct (Nat.ltb_spec 0 (r + 1)); [reflexivity|lia].
      + destruct (Nat.ltb_spec 1 (1 + j1 * n)) as [F|F]; [|nia]. cbn [walk]. destruct (Nat.ltb_spec 1 (1 + j1 * n)); [|lia]. cbn [fst]. apply with_same.
    - rewrite (range_ok d L b e) by auto. reflexivity.
  Qed.
  Lemma run_holds : forall os d L, holds d L -> all_within L os -> holds (fold_left (cstep n) os d) (fold_left cput_by os L).
  Proof.
    induction os as [|o os IH]; intros d L H Hw; [exact H|]. cbn [fold_left all_within] in *. destruct Hw as [Hw Hws]. apply IH; [|exact Hws].
    destruct o as [v|k|b e| |]; cbn [cstep cput_by].
    - now apply put_holds.
    - cbn in Hw. rewrite (get_holds k d L) by auto. exact H.
    - rewrite (range_holds d L b e) by auto. exact H.
    - now apply reopen_holds.
    - apply fresh_holds.
  Qed.
End Dir.
