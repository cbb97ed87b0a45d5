(** Proofs about a client's records. *)
From Coq Require Import List Arith NArith Bool Lia DecimalN DecimalPos Permutation.
From Verif Require Import ClientStore_Model ClientStore_Spec.
Import ListNotations.

Lemma text_eqb_spec a : forall b, reflect (a = b) (text_eqb a b).
Proof.
  induction a as [|x a IH]; intros [|y b]; cbn; try (constructor; congruence). destruct (Nat.eqb_spec x y) as [->|N]; cbn; [|constructor; congruence].
  destruct (IH b) as [->|N]; constructor; congruence.
Qed.
(** numbers *)
Lemma uint_chars d : uint_of (chars d) = Some d.
Proof. induction d as [|d IH|d IH|d IH|d IH|d IH|d IH|d IH|d IH|d IH|d IH]; cbn [chars uint_of]; rewrite ?IH; reflexivity. Qed.
Lemma chars_no c d : In c (chars d) -> 48 <= c <= 57.
Proof. induction d; cbn [chars In]; intros H; [destruct H|..]; destruct H as [<-|H]; auto; lia. Qed.
Lemma str_nonempty n : str n <> [].
Proof.
  unfold str. destruct n as [|p]; [discriminate|]. cbn [N.to_uint]. pose proof (Unsigned.to_uint_nonnil p) as H. destruct (Pos.to_uint p); [congruence|discriminate..].
Qed.
Lemma int_str n : int (str n) = Some n.
Proof.
  unfold int. pose proof (str_nonempty n). destruct (str n) as [|c r] eqn:E; [congruence|]. rewrite <- E. unfold str. rewrite uint_chars. cbn.
  rewrite DecimalN.Unsigned.of_to. reflexivity.
Qed.
Lemma str_comma n : ~ In comma (str n).
Proof. intros H. apply chars_no in H. unfold comma in H. lia. Qed.
Lemma str_inj a b : str a = str b -> a = b.
Proof. intros H. apply (f_equal int) in H. rewrite !int_str in H. congruence. Qed.
Lemma first_sep (c : nat) b : forall b' a a', ~ In c b -> ~ In c b' -> b ++ c :: a = b' ++ c :: a' -> b = b' /\ a = a'.
Proof.
  induction b as [|x b IH]; intros [|y b'] a a' N N' E; cbn in E.
  - injection E as <-. auto.
  - injection E as <- _. destruct N'. left. reflexivity.
  - injection E as -> _. destruct N. left. reflexivity.
  - injection E as <- E. destruct (IH b' a a') as (-> & ->); [intros H; apply N; right; exact H|intros H; apply N'; right; exact H|exact E|auto].
Qed.
Lemma key_inj i n i' n' : create_key i n = create_key i' n' -> i = i' /\ n = n'.
Proof.
  unfold create_key. intros E. apply (f_equal (@rev nat)) in E. rewrite !rev_app_distr in E. cbn [rev] in E. rewrite <- !app_assoc in E. cbn [app] in E.
  apply first_sep in E as (A & B); [|intros H; apply in_rev in H; apply (str_comma _ H)|intros H; apply in_rev in H; apply (str_comma _ H)].
  apply (f_equal (@rev nat)) in A, B. rewrite !rev_involutive in *. split; [exact B|apply str_inj, A].
Qed.
(** *** files *)
Lemma file_append k v fs k' : file k' (append k v fs) = if text_eqb k' k then Some (match file k fs with Some t => t | None => [] end ++ v ++ [newline]) else file k' fs.
Proof.
  induction fs as [|(k0, t) fs IH]; cbn [append file]; [reflexivity|]. destruct (text_eqb_spec k k0) as [E|N]; cbn [file].
  - rewrite <- E. destruct (text_eqb k' k); reflexivity.
  - rewrite IH. destruct (text_eqb_spec k' k0) as [E|N']; [|reflexivity]. destruct (text_eqb_spec k' k) as [E'|_]; [congruence|reflexivity].
Qed.
Lemma stored_snoc h i n x : stored (h ++ [(i, n, x)]) = add_item (stored h) i n x.
Proof. unfold stored. rewrite fold_left_app. reflexivity. Qed.
Lemma about_app idr id a b : about idr id (a ++ b) = about idr id a ++ about idr id b.
Proof. apply flat_map_app. Qed.
Definition body (l : list item) : text := concat (map (fun i => line_of i ++ [newline]) l).
Lemma stored_file h idr id : file (create_key idr id) (stored h) = match about idr id h with [] => None | l => Some (body l) end.
Proof.
  induction h as [|((i, n), x) h IH] using rev_ind; [reflexivity|]. rewrite stored_snoc, about_app. unfold add_item. rewrite file_append. cbn [about flat_map]. rewrite app_nil_r.
  destruct (text_eqb_spec (create_key idr id) (create_key i n)) as [E|N].
  - apply key_inj in E as (-> & ->). destruct (text_dec i i); [|congruence]. destruct (N.eq_dec n n); [|congruence]. rewrite IH.
    destruct (about i n h) as [|y l]; [cbn; rewrite app_nil_r; reflexivity|]. change ((y :: l) ++ [x]) with (y :: l ++ [x]). cbn [app]. f_equal. unfold body.
    change (y :: l ++ [x]) with ((y :: l) ++ [x]). rewrite map_app, concat_app. cbn [map concat]. rewrite app_nil_r. reflexivity.
  - destruct (text_dec i idr) as [->|]; [|rewrite app_nil_r; exact IH]. destruct (N.eq_dec n id) as [->|]; [congruence|rewrite app_nil_r; exact IH].
Qed.
Section Breaks.
Variable breaks : nat -> bool.
Hypothesis U : usual breaks.
Lemma split_line l : forall cur t, one_line breaks l -> split_lines breaks cur (l ++ newline :: t) = (rev cur ++ l) :: split_lines breaks [] t.
Proof.
  induction l as [|c l IH]; intros cur t O; cbn [app split_lines].
  - rewrite (proj1 U), app_nil_r. reflexivity.
  - rewrite (O c (or_introl eq_refl)). rewrite IH by (intros x X; apply O; right; exact X). cbn [rev]. rewrite <- app_assoc. reflexivity.
Qed.
Lemma clean_line i : clean breaks i -> one_line breaks (line_of i).
Proof.
  destruct U as (_ & M). intros C.
  assert (T : forall c, In c [tilde; 48; 65; 78; 74; 82] -> breaks c = false) by exact M.
  destruct i as [t|s|s r|s r|s r]; cbn [line_of clean] in *; intros c H; destruct H as [<-|[<-|H]]; try (apply T; cbn; tauto); auto;
    destruct C as (C1 & C2 & _); apply in_app_iff in H as [H|[<-|H]]; auto; apply T; cbn; tauto.
Qed.
Lemma body_lines l : (forall i, In i l -> clean breaks i) -> split_lines breaks [] (body l) = map line_of l.
Proof.
  induction l as [|i l IH]; intros C; [reflexivity|]. unfold body. cbn [map concat]. rewrite <- app_assoc. cbn [app].
  rewrite split_line by (apply clean_line, C; left; reflexivity). fold (body l). rewrite IH by (intros j J; apply C; right; exact J). reflexivity.
Qed.
Lemma lines_ok h idr id p : (forall e, In e h -> clean breaks (snd e)) ->
  lines_with breaks (stored h) idr id p = filter (starts p) (map line_of (about idr id h)).
Proof.
  intros C. unfold lines_with. rewrite stored_file. assert (A : forall i, In i (about idr id h) -> clean breaks i).
  { intros i I. apply in_flat_map in I as (((j, n), x) & J & X). destruct (text_dec j idr); [|destruct X]. destruct (N.eq_dec n id); [|destruct X]. destruct X as [<-|[]]. apply (C _ J). }
  destruct (about idr id h) as [|x l] eqn:E; [reflexivity|]. rewrite <- E in *. rewrite body_lines by exact A. reflexivity.
Qed.
End Breaks.
(** *** dictionaries *)
Lemma cut_ok s r : ~ In tilde s -> cut tilde (s ++ tilde :: r) = Some (s, r).
Proof.
  induction s as [|c s IH]; intros N; cbn [app cut]; [reflexivity|]. destruct (Nat.eqb_spec c tilde) as [->|_]; [destruct N; left; reflexivity|].
  rewrite IH by (intros H; apply N; right; exact H). reflexivity.
Qed.
Lemma by_sender_ok p l : forall d, (forall s v, In (s, v) l -> ~ In tilde s) ->
  by_sender (map (fun e => p :: tilde :: fst e ++ tilde :: snd e) l) d = Some (fold_left (fun d e => put (fst e) (snd e) d) l d).
Proof.
  induction l as [|(s, v) l IH]; intros d H; [reflexivity|]. cbn [map by_sender fst snd skipn fold_left]. rewrite cut_ok by (apply (H s v); left; reflexivity).
  apply IH. intros s' v' I. apply (H s' v'). right. exact I.
Qed.
Lemma put_fst k v d : map fst (put k v d) = if in_dec text_dec k (map fst d) then map fst d else map fst d ++ [k].
Proof.
  induction d as [|(k', v') d IH]; [reflexivity|]. cbn [put map fst]. destruct (text_eqb_spec k k') as [->|N]; cbn [map fst].
  - destruct (in_dec text_dec k' (k' :: map fst d)) as [_|X]; [reflexivity|destruct X; left; reflexivity].
  - rewrite IH. destruct (in_dec text_dec k (map fst d)) as [I|I], (in_dec text_dec k (k' :: map fst d)) as [J|J]; auto; [destruct J; right; exact I|destruct J as [J|J]; congruence].
Qed.
Lemma put_nodup k v d : NoDup (map fst d) -> NoDup (map fst (put k v d)).
Proof.
  intros N. rewrite put_fst. destruct (in_dec text_dec k (map fst d)); [exact N|]. apply NoDup_rev in N. rewrite <- (rev_involutive (map fst d ++ [k])). apply NoDup_rev.
  rewrite rev_app_distr. cbn. apply NoDup_cons; [|exact N]. intros I. apply in_rev in I. contradiction.
Qed.
Lemma put_in k v d : NoDup (map fst d) -> forall s w, In (s, w) (put k v d) <-> (s = k /\ w = v) \/ (s <> k /\ In (s, w) d).
Proof.
  induction d as [|(k', v') d IH]; intros N s w; cbn [put]; [simpl; intuition congruence|]. inversion N as [|? ? N1 N2]; subst.
  destruct (text_eqb_spec k k') as [->|Ne]; cbn [In].
  - split; intros H.
    + destruct H as [H|H]; [left; injection H as <- <-; auto|]. right. split; [|right; exact H]. intros ->. apply N1. apply (in_map fst) in H. exact H.
    + destruct H as [(-> & ->)|(A & [B|B])]; [left; reflexivity|congruence|right; exact B].
  - rewrite (IH N2). split; intros H.
    + destruct H as [H|[H|(A & B)]]; [injection H as <- <-; right; split; [congruence|left; reflexivity]|left; exact H|right; split; [exact A|right; exact B]].
    + destruct H as [H|(A & [B|B])]; [right; left; exact H|left; exact B|right; right; auto].
Qed.
Lemma last_snoc s l k v : last_of s (l ++ [(k, v)]) = if text_dec s k then Some v else last_of s l.
Proof. induction l as [|(k', v') l IH]; cbn [app last_of]; [destruct (text_dec s k); reflexivity|]. rewrite IH. destruct (text_dec s k); reflexivity. Qed.
Lemma tells_fold l : tells (fold_left (fun d e => put (fst e) (snd e) d) l []) l.
Proof.
  induction l as [|(k, v) l (N & H)] using rev_ind; [split; [apply NoDup_nil|intros s w; split; [intros []|discriminate]]|].
  rewrite fold_left_app. cbn [fold_left fst snd]. split; [apply put_nodup, N|]. intros s w. rewrite (put_in k v _ N), last_snoc, H.
  destruct (text_dec s k) as [->|Ne]; intuition congruence.
Qed.
Lemma last_some s l : (exists v, last_of s l = Some v) <-> In s (map fst l).
Proof.
  induction l as [|(k, v) l IH]; cbn [last_of map In fst]; [split; [intros (v & H); discriminate|intros []]|]. rewrite <- IH.
  destruct (last_of s l) as [w|] eqn:E; [split; [eauto|intros _; eauto]|]. destruct (text_dec s k) as [->|N]; [split; [auto|eauto]|].
  split; [intros (w & H); discriminate|]. intros [H|H]; [congruence|exact H].
Qed.
(** *** the kinds *)
Lemma kind_lines p f l : (forall i, starts p (line_of i) = match f i with Some _ => true | None => false end) ->
  (forall i e, f i = Some e -> line_of i = p :: tilde :: fst e ++ tilde :: snd e) ->
  filter (starts p) (map line_of l) = map (fun e : text * text => p :: tilde :: fst e ++ tilde :: snd e) (flat_map (fun i => match f i with Some e => [e] | None => [] end) l).
Proof.
  intros A B. induction l as [|i l IH]; [reflexivity|]. cbn [map filter flat_map]. rewrite A. destruct (f i) as [e|] eqn:E; [|exact IH].
  cbn [app map]. rewrite IH, (B i e E). reflexivity.
Qed.
Lemma split_on_no c t : forall cur, ~ In c t -> split_on c cur t = [rev cur ++ t].
Proof.
  induction t as [|x t IH]; intros cur N; cbn [split_on]; [rewrite app_nil_r; reflexivity|]. destruct (Nat.eqb_spec x c) as [->|_]; [destruct N; left; reflexivity|].
  rewrite IH by (intros H; apply N; right; exact H). cbn [rev]. rewrite <- app_assoc. reflexivity.
Qed.
Lemma split_key idr id : forall cur, ~ In comma idr -> split_on comma cur (create_key idr id) = [rev cur ++ idr; str id].
Proof.
  unfold create_key. induction idr as [|x t IH]; intros cur N; cbn [app split_on].
  - rewrite Nat.eqb_refl, split_on_no by apply str_comma. rewrite app_nil_r. reflexivity.
  - destruct (Nat.eqb_spec x comma) as [->|_]; [destruct N; left; reflexivity|]. rewrite IH by (intros H; apply N; right; exact H). cbn [rev]. rewrite <- app_assoc. reflexivity.
Qed.
Lemma last_append idr id v fs : ~ In comma idr -> last_req_id (append (create_key idr id) v fs) = option_map (N.max id) (last_req_id fs).
Proof.
  intros N. induction fs as [|(k, t) fs IH]; cbn [append].
  - cbn [last_req_id]. rewrite (split_key idr id [] N), int_str. reflexivity.
  - destruct (text_eqb_spec (create_key idr id) k) as [<-|Ne].
    + cbn [last_req_id]. rewrite (split_key idr id [] N), int_str. destruct (last_req_id fs) as [m|]; [|reflexivity]. cbn. f_equal. lia.
    + cbn [last_req_id]. rewrite IH. destruct (split_on comma [] k) as [|a [|x q]]; [reflexivity|reflexivity|]. destruct (int x) as [n|], (last_req_id fs) as [m|]; try reflexivity. cbn. f_equal. lia.
Qed.
