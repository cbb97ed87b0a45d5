(** Proofs for Did_Props.v *)
From Coq Require Import Ascii String List NArith Bool Lia Arith.
Import ListNotations.
From Verif Require Import Did_Model Did_Spec.
Local Open Scope N_scope.

Lemma num_snoc b l d : num b (l ++ [d]) = num b l * b + d.
Proof. unfold num. now rewrite fold_left_app. Qed.
Lemma pow_S f : 2 ^ N.of_nat (S f) = 2 * 2 ^ N.of_nat f.
Proof. rewrite Nat2N.inj_succ, N.pow_succ_r'. reflexivity. Qed.
Lemma div_small b f n : 2 <= b -> n < 2 ^ N.of_nat (S f) -> n / b < 2 ^ N.of_nat f.
Proof. intros B H. rewrite pow_S in H. apply N.div_lt_upper_bound; [lia|]. nia. Qed.
Lemma size_enough n : n < 2 ^ N.of_nat (N.size_nat n).
Proof.
  destruct n as [|p]; [reflexivity|]. pose proof (N.size_gt (Npos p)) as H. cbn [N.size_nat N.size] in *.
  replace (N.of_nat (Pos.size_nat p)) with (Npos (Pos.size p)); [exact H|].
  clear. induction p as [p IH|p IH|]; cbn [Pos.size Pos.size_nat]; rewrite ?Nat2N.inj_succ, <- ?IH; reflexivity.
Qed.
Lemma num_digits b f : 2 <= b -> forall n, n < 2 ^ N.of_nat f -> num b (digits b f n) = n.
Proof.
  intros B. induction f as [|f IH]; intros n H.
  - cbn in H. cbn. lia.
  - cbn [digits]. destruct (N.eqb_spec n 0) as [->|N0]; [reflexivity|].
    rewrite num_snoc, IH by (apply div_small; assumption).
    pose proof (N.div_mod' n b). lia.
Qed.
Lemma digits_small b f : 2 <= b -> forall n, Forall (fun d => d < b) (digits b f n).
Proof.
  intros B. induction f as [|f IH]; intros n; cbn [digits]; [constructor|]. destruct (n =? 0); [constructor|].
  apply Forall_app. split; [apply IH|]. constructor; [|constructor]. apply N.mod_lt. lia.
Qed.
Definition lead_ok (l : list N) : Prop := match l with d :: _ => d <> 0 | [] => True end.
Lemma digits_lead b f : 2 <= b -> forall n, n < 2 ^ N.of_nat f -> lead_ok (digits b f n).
Proof.
  intros B. induction f as [|f IH]; intros n H; cbn [digits]; [exact I|]. destruct (N.eqb_spec n 0) as [->|N0]; [exact I|].
  specialize (IH (n / b) (div_small b f n B H)). destruct (digits b f (n / b)) as [|d r] eqn:E; [|exact IH].
  cbn. assert (Q : n / b = 0). { rewrite <- (num_digits b f B (n / b)) by (apply div_small; assumption). now rewrite E. }
  pose proof (N.div_mod' n b). rewrite Q in H0. lia.
Qed.
Lemma num_pos b l : 2 <= b -> l <> [] -> lead_ok l -> 0 < num b l.
Proof.
  intros B. induction l as [|d l IH] using rev_ind; intros N0 L; [contradiction|]. rewrite num_snoc.
  destruct l as [|x l]; [cbn in *; lia|]. assert (0 < num b (x :: l)) by (apply IH; [discriminate|exact L]). nia.
Qed.
Lemma digits_num b : 2 <= b -> forall l f, lead_ok l -> Forall (fun d => d < b) l -> num b l < 2 ^ N.of_nat f -> digits b f (num b l) = l.
Proof.
  intros B. induction l as [|d l IH] using rev_ind; intros f L F H.
  - destruct f; reflexivity.
  - assert (P : 0 < num b (l ++ [d])) by (apply num_pos; [assumption|now destruct l|assumption]).
    destruct f as [|f]; [cbn in H; lia|]. cbn [digits]. destruct (N.eqb_spec (num b (l ++ [d])) 0) as [E|_]; [lia|].
    apply Forall_app in F as [F Fd]. inversion Fd as [|? ? D _]; subst.
    assert (Q : num b (l ++ [d]) / b = num b l).
    { rewrite num_snoc. rewrite N.add_comm, N.div_add by lia. rewrite N.div_small by assumption. lia. }
    assert (R : num b (l ++ [d]) mod b = d).
    { rewrite num_snoc. rewrite N.add_comm, N.mod_add by lia. now apply N.mod_small. }
    pose proof (div_small b f _ B H) as Hd. rewrite Q in *. rewrite R. rewrite IH; auto. now destruct l.
Qed.

Lemma split_zeros l : l = repeat 0 (zeros l) ++ strip l.
Proof. induction l as [|d l IH]; [reflexivity|]. cbn [zeros strip]. destruct (N.eqb_spec d 0) as [->|]; [cbn; now rewrite <- IH|reflexivity]. Qed.
Lemma strip_lead l : lead_ok (strip l).
Proof. induction l as [|d l IH]; [exact I|]. cbn [strip]. destruct (N.eqb_spec d 0); [exact IH|assumption]. Qed.
Lemma zeros_app z l : lead_ok l -> zeros (repeat 0 z ++ l) = z /\ strip (repeat 0 z ++ l) = l.
Proof.
  intros L. induction z as [|z [A B]]; cbn; [|now rewrite A, B].
  destruct l as [|d l]; [now split|]. cbn in *. destruct (N.eqb_spec d 0); [contradiction|now split].
Qed.
Lemma Forall_strip (P : N -> Prop) l : Forall P l -> Forall P (strip l).
Proof. intros F. rewrite (split_zeros l) in F. now apply Forall_app in F. Qed.
Lemma convert_trip b1 b2 l : 2 <= b1 -> 2 <= b2 -> Forall (fun d => d < b1) l -> convert b2 b1 (convert b1 b2 l) = l.
Proof.
  intros B1 B2 F. unfold convert. set (n := num b1 (strip l)).
  destruct (zeros_app (zeros l) (digits b2 (N.size_nat n) n)) as [-> ->]; [apply digits_lead; [assumption|apply size_enough]|].
  rewrite num_digits by (try assumption; apply size_enough). cbv zeta.
  assert (E : digits b1 (N.size_nat n) n = strip l).
  { unfold n at 2. apply digits_num; auto; [apply strip_lead|now apply Forall_strip|fold n; apply size_enough]. }
  rewrite E. symmetry. apply split_zeros.
Qed.
Lemma convert_small b1 b2 l : 2 <= b2 -> Forall (fun d => d < b2) (convert b1 b2 l).
Proof.
  intros B2. unfold convert. apply Forall_app. split; [|now apply digits_small].
  apply Forall_forall. intros x Hx. apply repeat_spec in Hx. lia.
Qed.

Lemma alphabet_length : List.length alphabet = 58%nat.
Proof. reflexivity. Qed.
Lemma index_char d : d < 58 -> index (char d) alphabet = Some d.
Proof.
  intros H. assert (G : forallb (fun k => match index (char (N.of_nat k)) alphabet with Some x => x =? N.of_nat k | None => false end) (seq 0 58) = true) by reflexivity.
  rewrite forallb_forall in G. assert (I0 : In (N.to_nat d) (seq 0 58)) by (apply in_seq; lia).
  specialize (G (N.to_nat d) I0). rewrite N2Nat.id in G.
  destruct (index (char d) alphabet) as [x|]; [|discriminate G]. f_equal. now apply N.eqb_eq.
Qed.
Lemma char_index_gen c : forall l d, index c l = Some d -> nth (N.to_nat d) l 0 = c /\ d < N.of_nat (List.length l).
Proof.
  induction l as [|x l IH]; intros d H; [discriminate|]. cbn [index] in H. destruct (N.eqb_spec c x) as [->|N0].
  - injection H as <-. split; [reflexivity|]. cbn [List.length]. lia.
  - destruct (index c l) as [e|]; [|discriminate]. injection H as <-. destruct (IH e eq_refl) as [A B]. split.
    + now rewrite N2Nat.inj_succ.
    + cbn [List.length]. lia.
Qed.
Lemma char_index c d : index c alphabet = Some d -> char d = c /\ d < 58.
Proof. intros H. apply char_index_gen in H. rewrite alphabet_length in H. exact H. Qed.
Lemma indices_chars l : Forall (fun d => d < 58) l -> indices (map char l) = Some l.
Proof. induction 1 as [|d l H F IH]; [reflexivity|]. cbn [map indices]. now rewrite index_char, IH. Qed.
Lemma chars_indices s : forall l, indices s = Some l -> map char l = s /\ Forall (fun d => d < 58) l.
Proof.
  induction s as [|c s IH]; intros l H; cbn [indices] in H.
  - injection H as <-. split; [reflexivity|constructor].
  - destruct (index c alphabet) as [d|] eqn:E; [|discriminate]. destruct (indices s) as [r|]; [|discriminate].
    injection H as <-. destruct (IH r eq_refl) as [A B]. apply char_index in E as [E1 E2]. split; [cbn [map]; now rewrite E1, A|now constructor].
Qed.

Lemma decode_encode b : is_bytes b -> b58decode (b58encode b) = Some b.
Proof.
  intros F. unfold b58decode, b58encode. rewrite indices_chars by (apply convert_small; lia). cbn [option_map].
  now rewrite convert_trip by (assumption || lia).
Qed.
Lemma encode_decode s b : b58decode s = Some b -> b58encode b = s /\ is_bytes b.
Proof.
  unfold b58decode, b58encode. destruct (indices s) as [l|] eqn:E; [|discriminate]. intros [= <-].
  apply chars_indices in E as [E F]. split; [now rewrite convert_trip by (assumption || lia)|apply convert_small; lia].
Qed.
Lemma decode_some s : (exists b, b58decode s = Some b) <-> base58_only s.
Proof.
  unfold b58decode. split.
  - intros [b H]. destruct (indices s) as [l|] eqn:E; [|discriminate]. apply chars_indices in E as [<- F].
    apply Forall_forall. intros c Hc. apply in_map_iff in Hc as (d & <- & Hd). rewrite Forall_forall in F. specialize (F d Hd).
    unfold char. apply nth_In. rewrite alphabet_length. lia.
  - intros F. assert (G : exists l, indices s = Some l).
    { induction F as [|c s H F [l IH]]; [now exists []|]. cbn [indices]. rewrite IH.
      assert (Q : exists d, index c alphabet = Some d).
      { clear - H. induction alphabet as [|x r IH]; [contradiction|]. cbn [index]. destruct (N.eqb_spec c x); [eexists; reflexivity|].
        destruct H as [H|H]; [congruence|]. destruct (IH H) as [d ->]. eexists. reflexivity. }
      destruct Q as [d ->]. eexists. reflexivity. }
    destruct G as [l ->]. eexists. reflexivity.
Qed.
Lemma no_tilde : ~ In tilde alphabet.
Proof.
  intros H. assert (G : forallb (fun c => negb (c =? tilde)) alphabet = true) by reflexivity.
  rewrite forallb_forall in G. specialize (G _ H). rewrite N.eqb_refl in G. discriminate.
Qed.
Lemma not_tilde s b : b58decode s = Some b -> match s with c :: _ => c =? tilde | [] => false end = false.
Proof.
  intros H. destruct s as [|c s]; [reflexivity|]. apply N.eqb_neq. intros ->.
  assert (G : base58_only (tilde :: s)) by (apply decode_some; eexists; exact H).
  inversion G as [|? ? G1]. now apply no_tilde in G1.
Qed.
Lemma encode_nil b : is_bytes b -> b58encode b = [] -> b = [].
Proof. intros F E. apply decode_encode in F. rewrite E in F. cbn in F. congruence. Qed.
Lemma encode_nonempty b : is_bytes b -> b <> [] -> exists c r, b58encode b = c :: r.
Proof. intros F N0. destruct (b58encode b) as [|c r] eqn:E; [apply encode_nil in E; [contradiction|assumption]|eauto]. Qed.
Lemma given_ne (x : list N) : x <> [] -> given (Some x) = Some x.
Proof. now destruct x. Qed.

Lemma nacl_32 k : List.length k = 32%nat -> nacl_verifier k = Some (Some k).
Proof. intros L. unfold nacl_verifier. rewrite L. destruct k; [discriminate L|reflexivity]. Qed.
Lemma key_ne (k : list N) : List.length k = 32%nat -> k <> [].
Proof. intros L ->. discriminate L. Qed.

Lemma verifier_full i v k : i <> [] -> base58_only i -> is_key k -> v = b58encode k -> verifier (Some v) (Some i) = Some (v, Some k).
Proof.
  intros NI BI [KB KL] ->. unfold verifier. rewrite (given_ne i NI). apply decode_some in BI as [raw ->].
  pose proof (decode_encode k KB) as D. destruct (encode_nonempty k KB (key_ne k KL)) as (c & r & E).
  pose proof (not_tilde _ _ D) as T. rewrite E in *. cbn [given]. rewrite T, D, (nacl_32 k KL). reflexivity.
Qed.
Lemma verifier_abbr i a : i <> [] -> a <> [] -> is_bytes i -> is_bytes a -> List.length (i ++ a) = 32%nat ->
  verifier (Some (tilde :: b58encode a)) (Some (b58encode i)) = Some (b58encode (i ++ a), Some (i ++ a)).
Proof.
  intros NI NA IB AB L. unfold verifier. destruct (encode_nonempty i IB NI) as (c & r & E).
  rewrite (given_ne (b58encode i)) by (rewrite E; discriminate). rewrite (decode_encode i IB). cbn [given tl]. rewrite N.eqb_refl.
  rewrite (decode_encode a AB), (decode_encode (i ++ a)) by (now apply Forall_app). now rewrite (nacl_32 _ L).
Qed.

Lemma hex_value_digit n : n < 16 -> hex_value (hex_digit n) = Some n /\ hex_digit n < 256.
Proof.
  intros H. assert (G : forallb (fun k => (match hex_value (hex_digit (N.of_nat k)) with Some x => x =? N.of_nat k | None => false end) && (hex_digit (N.of_nat k) <? 256)) (seq 0 16) = true) by reflexivity.
  rewrite forallb_forall in G. assert (I0 : In (N.to_nat n) (seq 0 16)) by (apply in_seq; lia). specialize (G _ I0). rewrite N2Nat.id in G.
  apply andb_true_iff in G as [G1 G2]. split; [|now apply N.ltb_lt].
  destruct (hex_value (hex_digit n)) as [x|]; [|discriminate]. f_equal. now apply N.eqb_eq.
Qed.
Lemma unhex_hex k : is_bytes k -> unhex (hex k) = Some k /\ is_bytes (hex k) /\ List.length (hex k) = (2 * List.length k)%nat.
Proof.
  induction 1 as [|x k H F (A & B & C)]; [repeat split; constructor|].
  assert (H1 : x / 16 < 16) by (apply N.div_lt_upper_bound; lia). assert (H2 : x mod 16 < 16) by (apply N.mod_lt; lia).
  apply hex_value_digit in H1 as [P1 Q1], H2 as [P2 Q2]. unfold hex in *. cbn [flat_map app unhex List.length]. rewrite P1, P2, A.
  split; [|split; [now repeat constructor|lia]]. f_equal. f_equal. pose proof (N.div_mod' x 16). lia.
Qed.
Lemma unhex_length l : forall k, unhex l = Some k -> (List.length l = 2 * List.length k)%nat.
Proof.
  assert (G : forall n l, (List.length l <= n)%nat -> forall k, unhex l = Some k -> (List.length l = 2 * List.length k)%nat).
  { induction n as [|n IH]; intros l0 Hn k.
    - destruct l0; [cbn; intros [= <-]; reflexivity|cbn in Hn; lia].
    - destruct l0 as [|a [|b r]]; cbn [unhex]; [intros [= <-]; reflexivity|discriminate|].
      destruct (hex_value a), (hex_value b); try discriminate. destruct (unhex r) as [t|] eqn:E; [|discriminate].
      intros [= <-]. apply IH in E; [|cbn in Hn; lia]. cbn [List.length]. lia. }
  intros k. exact (G (List.length l) l (le_n _) k).
Qed.
