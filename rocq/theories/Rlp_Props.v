(** Properties C15 and C16: RLP and hex-prefix encodings round-trip. *)
From Coq Require Import List Arith NArith Bool Lia.
From Verif Require Import Base Rlp_Model.
Import ListNotations.
Local Open Scope res_scope.
Local Opaque N.pow N.div N.modulo N.mul N.add N.sub.

Section ItemInd.
  Variable P : item -> Prop.
  Hypothesis HStr : forall b, P (Str b).
  Hypothesis HLst : forall l, Forall P l -> P (Lst l).
  Fixpoint item_ind' (i : item) : P i :=
    match i with
    | Str b => HStr b
    | Lst l => HLst l ((fix go l : Forall P l :=
        match l with [] => Forall_nil _ | x :: l' => Forall_cons _ (item_ind' x) (go l') end) l)
    end.
End ItemInd.

(** ** Big-endian numbers *)
Lemma fold_be_acc b : forall a, fold_left (fun a d => (256 * a + d)%N) b a
  = (a * 256 ^ lenN b + big_endian_to_int b)%N.
Proof.
  unfold big_endian_to_int, lenN. induction b as [|d b IH]; intros a.
  - simpl. rewrite N.mul_1_r. lia.
  - cbn [fold_left length]. rewrite IH, (IH (256 * 0 + d)%N), Nat2N.inj_succ, N.pow_succ_r'. lia.
Qed.

Lemma be_digits_value k : forall n acc, (n < 256 ^ N.of_nat k)%N ->
  big_endian_to_int (be_digits k n acc) = (n * 256 ^ lenN acc + big_endian_to_int acc)%N.
Proof.
  induction k as [|k IH]; intros n acc Hn.
  - simpl in *. assert (n = 0)%N as -> by lia. lia.
  - cbn [be_digits]. destruct (N.eqb_spec n 0) as [->|Hz]; [lia|].
    rewrite Nat2N.inj_succ, N.pow_succ_r' in Hn.
    rewrite IH by (apply N.div_lt_upper_bound; lia).
    unfold big_endian_to_int at 1. cbn [fold_left]. rewrite fold_be_acc.
    unfold lenN. cbn [length]. rewrite Nat2N.inj_succ, N.pow_succ_r'.
    rewrite (N.div_mod n 256) at 3 by lia. lia.
Qed.
Lemma be_value n : (n < 256 ^ 8)%N -> big_endian_to_int (int_to_big_endian n) = n.
Proof.
  intros H. unfold int_to_big_endian. rewrite be_digits_value by exact H. cbn. lia.
Qed.
Lemma be_digits_length k : forall n acc, length (be_digits k n acc) <= k + length acc.
Proof.
  induction k as [|k IH]; intros n acc; cbn [be_digits]; [lia|].
  destruct (N.eqb n 0); [lia|]. rewrite IH. cbn [length]. lia.
Qed.
Lemma be_digits_length_pos k n acc : n <> 0%N -> length acc < length (be_digits (S k) n acc).
Proof.
  intros H. cbn [be_digits]. destruct (N.eqb_spec n 0) as [->|_]; [congruence|].
  clear H. assert (G : forall k n acc, length acc <= length (be_digits k n acc)).
  { clear. induction k as [|k IH]; intros n acc; cbn [be_digits]; [lia|].
    destruct (N.eqb n 0); [lia|]. rewrite <- IH. cbn [length]. lia. }
  eapply Nat.lt_le_trans; [|apply G]. cbn [length]. lia.
Qed.
Lemma be_length n : n <> 0%N -> 1 <= length (int_to_big_endian n) <= 8.
Proof.
  intros H. unfold int_to_big_endian. split.
  - apply (be_digits_length_pos 7 n [] H).
  - apply be_digits_length.
Qed.

(** ** Slices *)
Lemma takeN_app {A} (a b : list A) : takeN (lenN a) (a ++ b) = a.
Proof.
  unfold takeN, lenN. rewrite app_length, Nat2N.inj_add, N.min_l by lia.
  rewrite Nat2N.id, firstn_app, Nat.sub_diag, firstn_all, app_nil_r. reflexivity.
Qed.
Lemma dropN_app {A} (a b : list A) : dropN (lenN a) (a ++ b) = b.
Proof.
  unfold dropN, lenN. rewrite app_length, Nat2N.inj_add, N.min_l by lia.
  rewrite Nat2N.id, skipn_app, Nat.sub_diag, skipn_all. reflexivity.
Qed.
Lemma takeN_all {A} (a : list A) : takeN (lenN a) a = a.
Proof. rewrite <- (app_nil_r a) at 2. apply takeN_app. Qed.
Lemma dropN_0 {A} (a : list A) : dropN 0 a = a.
Proof. unfold dropN. rewrite N.min_0_l. reflexivity. Qed.

Lemma lenN_app {A} (a b : list A) : lenN (a ++ b) = (lenN a + lenN b)%N.
Proof. unfold lenN. rewrite app_length. lia. Qed.

(** ** Length prefixes *)
Lemma consume_prefix_gen (off len : N) rest : (off = 128 \/ off = 192)%N -> (len < 256 ^ 8)%N ->
  consume_length_prefix (length_prefix len off ++ rest)
  = Ok (N.eqb off 192, len, lenN (length_prefix len off)).
Proof.
  intros Hoff Hlen. unfold length_prefix. destruct (N.ltb_spec len 56) as [Hs|Hl].
  - simpl app. unfold consume_length_prefix, lenN. cbn [length].
    destruct Hoff as [-> | ->].
    + rewrite (proj2 (N.ltb_ge _ _)) by lia. rewrite (proj2 (N.ltb_lt _ _)) by lia.
      do 2 f_equal. f_equal. simpl. lia.
    + rewrite (proj2 (N.ltb_ge (192 + len) 128)) by lia.
      rewrite (proj2 (N.ltb_ge (192 + len) (128 + 56))) by lia.
      rewrite (proj2 (N.ltb_ge (192 + len) 192)) by lia.
      rewrite (proj2 (N.ltb_lt _ _)) by lia.
      do 2 f_equal. f_equal. simpl. lia.
  - assert (Hn0 : len <> 0%N) by lia. pose proof (be_length len Hn0) as Hb.
    pose proof (be_value len Hlen) as Hv.
    set (s := int_to_big_endian len) in *. cbn [app].
    assert (Hs8 : (1 <= lenN s <= 8)%N) by (unfold lenN; lia).
    unfold consume_length_prefix.
    assert (L : lenN ((off + 56 - 1 + lenN s)%N :: s) = (1 + lenN s)%N) by (unfold lenN; cbn [length]; lia).
    rewrite L. clear L. destruct Hoff as [-> | ->].
    + rewrite (proj2 (N.ltb_ge _ 128)) by lia.
      rewrite (proj2 (N.ltb_ge _ (128 + 56))) by lia.
      rewrite (proj2 (N.ltb_lt _ 192)) by lia.
      cbn zeta. replace (128 + 56 - 1 + lenN s - 128 - 56 + 1)%N with (lenN s) by lia.
      rewrite takeN_app, Hv. reflexivity.
    + rewrite (proj2 (N.ltb_ge _ 128)) by lia.
      rewrite (proj2 (N.ltb_ge _ (128 + 56))) by lia.
      rewrite (proj2 (N.ltb_ge _ 192)) by lia.
      rewrite (proj2 (N.ltb_ge _ (192 + 56))) by lia.
      cbn zeta. replace (192 + 56 - 1 + lenN s - 192 - 56 + 1)%N with (lenN s) by lia.
      rewrite takeN_app, Hv. reflexivity.
Qed.

Lemma length_prefix_pos len off : (0 < lenN (length_prefix len off))%N.
Proof. unfold length_prefix, lenN. destruct (len <? 56)%N; cbn [length]; lia. Qed.

Lemma rlp_nonempty i : rlp i <> [].
Proof.
  assert (forall len off r, length_prefix len off ++ r <> []).
  { intros len off r E. apply app_eq_nil in E as [E _]. pose proof (length_prefix_pos len off).
    rewrite E in *. unfold lenN in *. simpl in *. lia. }
  destruct i as [[|b [|c s]]|l]; cbn [rlp]; auto. destruct (b <? 128)%N; auto. discriminate.
Qed.

(** The prefix of an encoded item, whatever follows it, tells its length. *)
Lemma consume_rlp i rest : fits i = true -> exists ty l p,
  consume_length_prefix (rlp i ++ rest) = Ok (ty, l, p) /\ (l + p)%N = lenN (rlp i) /\
  match i with
  | Str s => ty = false /\ takeN l (dropN p (rlp i)) = s
  | Lst l' => ty = true /\ dropN p (rlp i) = concat (map rlp l')
  end.
Proof.
  destruct i as [s|l']; intros F.
  - assert (G : rlp (Str s) = length_prefix (lenN s) 128 ++ s ->
      exists ty l p, consume_length_prefix (rlp (Str s) ++ rest) = Ok (ty, l, p) /\ (l + p)%N = lenN (rlp (Str s)) /\
      ty = false /\ takeN l (dropN p (rlp (Str s))) = s).
    { intros E. rewrite E. cbn [fits] in F. apply N.ltb_lt in F.
      rewrite <- app_assoc, consume_prefix_gen by auto.
      exists false, (lenN s), (lenN (length_prefix (lenN s) 128)). split; [reflexivity|]. split.
      - rewrite lenN_app. lia.
      - split; [reflexivity|]. rewrite dropN_app, takeN_all. reflexivity. }
    destruct s as [|b [|c s]]; try (apply G; reflexivity).
    cbn [rlp] in *. destruct (N.ltb_spec b 128) as [Hb|Hb]; [|apply G; reflexivity].
    exists false, 1%N, 0%N. simpl app. unfold consume_length_prefix. rewrite (proj2 (N.ltb_lt _ _)) by lia.
    split; [reflexivity|]. split; [reflexivity|]. split; [reflexivity|]. rewrite dropN_0. reflexivity.
  - cbn [rlp fits] in *. apply andb_true_iff in F as [_ F]. apply N.ltb_lt in F.
    set (p := concat (map rlp l')) in *.
    rewrite <- app_assoc, consume_prefix_gen by auto.
    exists true, (lenN p), (lenN (length_prefix (lenN p) 192)). split; [reflexivity|]. split.
    + rewrite lenN_app. lia.
    + split; [reflexivity|]. apply dropN_app.
Qed.

Lemma decode_items_ok dec l : (forall i, In i l -> fits i = true) ->
  (forall i, In i l -> dec (rlp i) = Ok i) ->
  forall n, length (concat (map rlp l)) <= n -> decode_items dec n (concat (map rlp l)) = Ok l.
Proof.
  induction l as [|i l IH]; intros F D n Hn; [destruct n; reflexivity|].
  cbn [map concat] in *. rewrite app_length in Hn.
  destruct (rlp i ++ concat (map rlp l)) as [|b0 tl] eqn:E.
  { apply app_eq_nil in E as [E _]. destruct (rlp_nonempty i E). }
  destruct n as [|n].
  { pose proof (rlp_nonempty i). destruct (rlp i); [congruence|]. simpl in Hn. lia. }
  cbn [decode_items]. rewrite <- E.
  destruct (consume_rlp i (concat (map rlp l)) (F i (or_introl eq_refl))) as (ty & ln & p & Ec & El & _).
  rewrite Ec. cbn [bind]. rewrite El, takeN_app, dropN_app, D by (left; reflexivity). cbn [bind].
  rewrite IH; [reflexivity| | |].
  - intros; apply F; right; auto.
  - intros; apply D; right; auto.
  - pose proof (rlp_nonempty i). destruct (rlp i); [congruence|]. simpl in Hn. lia.
Qed.

Lemma concat_length_in {A} (x : list A) l : In x l -> length x <= length (concat l).
Proof.
  induction l as [|y l IH]; simpl; [tauto|]. rewrite app_length. intros [->|H]; [lia|]. specialize (IH H). lia.
Qed.

Lemma decode_f_ok i : fits i = true -> forall fuel, length (rlp i) < fuel -> decode_f fuel (rlp i) = Ok i.
Proof.
  induction i as [s|l IH] using item_ind'; intros F fuel Hf; (destruct fuel as [|fuel]; [lia|]).
  - cbn [decode_f]. destruct (consume_rlp (Str s) [] F) as (ty & ln & p & Ec & El & -> & Es).
    rewrite app_nil_r in Ec. rewrite Ec. cbn [bind]. rewrite Es. reflexivity.
  - cbn [decode_f]. destruct (consume_rlp (Lst l) [] F) as (ty & ln & p & Ec & El & -> & Es).
    rewrite app_nil_r in Ec. rewrite Ec. cbn [bind]. rewrite Es.
    assert (Fl : forall i, In i l -> fits i = true).
    { cbn [fits] in F. apply andb_true_iff in F as [F _]. rewrite forallb_forall in F. exact F. }
    assert (Hlt : length (concat (map rlp l)) < length (rlp (Lst l))).
    { cbn [rlp]. rewrite app_length. pose proof (length_prefix_pos (lenN (concat (map rlp l))) 192).
      unfold lenN in *. lia. }
    rewrite decode_items_ok; [reflexivity|exact Fl| |lia].
    intros i Hi. rewrite Forall_forall in IH. apply IH; auto.
    pose proof (concat_length_in (rlp i) (map rlp l) (in_map rlp l i Hi)). lia.
Qed.

(** C15: decoding an encoding gives the item back, for every item the encoder accepts. *)
Theorem C15_roundtrip : forall i b, rlp_encode i = Ok b -> rlp_decode b = Ok i.
Proof.
  unfold rlp_encode, rlp_decode. intros i b E. destruct (fits i) eqn:F; [|discriminate].
  injection E as <-. apply decode_f_ok; auto. lia.
Qed.

(** The encoder accepts every item whose encoding is shorter than 256^8 bytes. *)
Lemma fits_small i : (lenN (rlp i) < 256 ^ 8)%N -> fits i = true.
Proof.
  induction i as [s|l IH] using item_ind'; intros Hl.
  - cbn [fits]. apply N.ltb_lt. destruct s as [|b [|c s]]; cbn [rlp] in Hl; try rewrite lenN_app in Hl; try lia.
    destruct (b <? 128)%N; try rewrite lenN_app in Hl; lia.
  - cbn [rlp] in Hl. rewrite lenN_app in Hl. cbn [fits]. apply andb_true_iff. split; [|apply N.ltb_lt; lia].
    apply forallb_forall. intros i Hi. rewrite Forall_forall in IH. apply IH; auto.
    pose proof (concat_length_in (rlp i) (map rlp l) (in_map rlp l i Hi)). unfold lenN in *. lia.
Qed.
Theorem C15_encodes : forall i, (lenN (rlp i) < 256 ^ 8)%N -> rlp_encode i = Ok (rlp i).
Proof. intros i H. unfold rlp_encode. rewrite fits_small; auto. Qed.

Theorem C15_injective : forall i j b, rlp_encode i = Ok b -> rlp_encode j = Ok b -> i = j.
Proof.
  intros i j b Ei Ej. apply C15_roundtrip in Ei. apply C15_roundtrip in Ej. congruence.
Qed.

(** No encoding is a proper prefix of another. *)
Theorem C15_prefix_free : forall i j b c rest, rlp_encode i = Ok b -> rlp_encode j = Ok c ->
  b = c ++ rest -> rest = [] /\ i = j.
Proof.
  intros i j b c rest Ei Ej E.
  assert (Fi : fits i = true /\ rlp i = b) by (unfold rlp_encode in Ei; destruct (fits i); [split; congruence|discriminate]).
  assert (Fj : fits j = true /\ rlp j = c) by (unfold rlp_encode in Ej; destruct (fits j); [split; congruence|discriminate]).
  destruct Fi as [Fi <-], Fj as [Fj <-].
  destruct (consume_rlp i [] Fi) as (ty & l & p & Ec & El & _).
  destruct (consume_rlp j rest Fj) as (ty' & l' & p' & Ec' & El' & _).
  rewrite app_nil_r in Ec. rewrite E in Ec. rewrite Ec' in Ec. injection Ec as <- <- <-.
  assert (L : length (rlp i) = length (rlp j)) by (unfold lenN in *; lia).
  rewrite E, app_length in L. assert (rest = []) as -> by (destruct rest; [auto|simpl in L; lia]).
  split; auto. rewrite app_nil_r in E. apply (C15_injective i j (rlp i)); auto. rewrite E. exact Ej.
Qed.

(** ** Decoding arbitrary bytes always ends: an item, or IndexError *)
Lemma takeN_length {A} n (s : list A) : length (takeN n s) <= length s.
Proof. unfold takeN. rewrite firstn_length. lia. Qed.
Lemma dropN_length {A} n (s : list A) : (0 < n)%N -> s <> [] -> length (dropN n s) < length s.
Proof.
  intros Hn Hs. unfold dropN, lenN. rewrite skipn_length. destruct s; [congruence|]. cbn [length]. lia.
Qed.
Lemma consume_progress s ty l p : consume_length_prefix s = Ok (ty, l, p) ->
  (0 < l + p)%N /\ (ty = true -> 0 < p)%N /\ s <> [].
Proof.
  unfold consume_length_prefix. destruct s as [|b0 tl]; [discriminate|]. intros E.
  split; [|split; [|discriminate]].
  - destruct (b0 <? 128)%N; [injection E as <- <- <-; lia|].
    destruct (b0 <? 128 + 56)%N; [injection E as <- <- <-; lia|].
    destruct (b0 <? 192)%N; [injection E as <- <- <-; lia|].
    destruct (b0 <? 192 + 56)%N; [injection E as <- <- <-; lia|].
    injection E as <- <- <-; lia.
  - intros ->. destruct (b0 <? 128)%N; [discriminate|].
    destruct (b0 <? 128 + 56)%N; [discriminate|].
    destruct (b0 <? 192)%N; [discriminate|].
    destruct (b0 <? 192 + 56)%N; injection E as <- <-; lia.
Qed.
Lemma consume_err s e : consume_length_prefix s = Err e -> e = IndexError.
Proof.
  unfold consume_length_prefix. destruct s; [congruence|].
  repeat match goal with |- context [if ?c then _ else _] => destruct c end; discriminate.
Qed.
Lemma decode_items_total dec m : 
  (forall s, length s <= m -> forall e, dec s = Err e -> e = IndexError) ->
  forall n s, length s <= n -> length s <= m -> forall e, decode_items dec n s = Err e -> e = IndexError.
Proof.
  intros D. induction n as [|n IH]; intros s Hn Hm e E.
  - destruct s; [discriminate|simpl in Hn; lia].
  - destruct s as [|b tl]; [discriminate|]. set (s := b :: tl) in *. cbn [decode_items] in E.
    change (decode_items dec (S n) s) with
      ('(_, l, p) <- consume_length_prefix s ;; x <- dec (takeN (l + p) s) ;;
       xs <- decode_items dec n (dropN (l + p) s) ;; Ok (x :: xs)) in E.
    destruct (consume_length_prefix s) as [[[ty l] p]|e'] eqn:Ec; cbn [bind] in E;
      [|injection E as <-; eauto using consume_err].
    destruct (consume_progress _ _ _ _ Ec) as (Hp & _ & Hne).
    destruct (dec (takeN (l + p) s)) as [x|e'] eqn:Ed; cbn [bind] in E.
    + destruct (decode_items dec n (dropN (l + p) s)) as [xs|e'] eqn:Ei; [discriminate|].
      injection E as <-. pose proof (dropN_length (l + p) s Hp Hne). eapply IH; [| |exact Ei]; lia.
    + injection E as <-. eapply D; [|exact Ed]. pose proof (takeN_length (l + p) s). lia.
Qed.
Theorem C15_decode_total : forall s, (exists i, rlp_decode s = Ok i) \/ rlp_decode s = Err IndexError.
Proof.
  assert (G : forall fuel s, length s < fuel -> forall e, decode_f fuel s = Err e -> e = IndexError).
  { induction fuel as [|fuel IH]; intros s Hs e E; [lia|]. cbn [decode_f] in E.
    destruct (consume_length_prefix s) as [[[ty l] p]|e'] eqn:Ec; cbn [bind] in E;
      [|injection E as <-; eauto using consume_err].
    destruct (consume_progress _ _ _ _ Ec) as (_ & Hp & Hne). destruct ty; [|discriminate].
    specialize (Hp eq_refl). pose proof (dropN_length p s Hp Hne).
    destruct (decode_items (decode_f fuel) (length s) (dropN p s)) as [xs|e'] eqn:Ei; [discriminate|].
    injection E as <-.
    eapply (decode_items_total (decode_f fuel) (length s - 1)); [| | |exact Ei]; try lia.
    intros s' Hs'. apply IH. lia. }
  intros s. destruct (rlp_decode s) as [i|e] eqn:E; [eauto|right]. f_equal. eapply G; [|exact E]. lia.
Qed.

(** The decoder does not insist on the canonical form: different strings may decode to one item. *)
Theorem C15_decode_injective_refuted : exists s t i,
  s <> t /\ rlp_decode s = Ok i /\ rlp_decode t = Ok i.
Proof. exists [5%N], [129; 5]%N, (Str [5%N]). split; [discriminate|]. split; vm_compute; reflexivity. Qed.

(** A case with all length classes up to 2 length bytes *)
Definition big n := repeat 200%N n.
Definition ex_item := Lst [Str []; Str [127%N]; Str [128%N]; Lst []; Lst [Str (big 55); Str (big 56); Lst [Str (big 300)]]].
Example ex_C15 : exists b, rlp_encode ex_item = Ok b /\ length b = 431 /\ rlp_decode b = Ok ex_item.
Proof. eexists. split; [vm_compute; reflexivity|]. split; vm_compute; reflexivity. Qed.
Example ex_C15_values : rlp_encode (Str (map N.of_nat [100; 111; 103])) = Ok [131; 100; 111; 103]%N /\
  rlp_encode (Lst [Lst []; Lst [Lst []]]) = Ok [195; 192; 193; 192]%N.
Proof. split; vm_compute; reflexivity. Qed.

(** ** C16: nibbles *)
(** A byte string; a sequence of nibbles *)
Definition is_bytes (s : bytes) : Prop := Forall (fun b => (b < 256)%N) s.
Definition is_nibbles (n : nibbles) : Prop := Forall (fun x => (x < 16)%N) n.

Lemma bin_to_nibbles_nibbles s : is_bytes s -> is_nibbles (bin_to_nibbles s).
Proof.
  induction 1 as [|b s Hb _ IH]; cbn [bin_to_nibbles]; [constructor|].
  constructor; [apply N.div_lt_upper_bound; lia|]. constructor; [apply N.mod_lt; lia|exact IH].
Qed.
Lemma bin_to_nibbles_length s : length (bin_to_nibbles s) = 2 * length s.
Proof. induction s as [|b s IH]; cbn [bin_to_nibbles length]; lia. Qed.
Lemma pairs_bin s : pairs_to_bytes (bin_to_nibbles s) = Ok s.
Proof.
  induction s as [|b s IH]; [reflexivity|]. cbn [bin_to_nibbles pairs_to_bytes]. rewrite IH. cbn [bind].
  do 2 f_equal. rewrite <- N.div_mod by lia. reflexivity.
Qed.

Theorem C16_bin_roundtrip : forall s, is_bytes s -> nibbles_to_bin (bin_to_nibbles s) = Ok s.
Proof.
  intros s Hs. unfold nibbles_to_bin.
  assert (E : existsb (fun x => (15 <? x)%N) (bin_to_nibbles s) = false).
  { apply Bool.not_true_iff_false. rewrite existsb_exists. intros (x & Hx & Hl). apply N.ltb_lt in Hl.
    pose proof (bin_to_nibbles_nibbles s Hs) as Hn. unfold is_nibbles in Hn. rewrite Forall_forall in Hn.
    specialize (Hn x Hx). lia. }
  rewrite E, bin_to_nibbles_length, Nat.odd_mul. cbn [Nat.odd Nat.even negb andb]. apply pairs_bin.
Qed.

Theorem C16_bin_injective : forall s t, bin_to_nibbles s = bin_to_nibbles t -> s = t.
Proof. intros s t E. pose proof (pairs_bin s) as P. rewrite E, pairs_bin in P. congruence. Qed.

Lemma div_mod_16 a b : (b < 16)%N -> ((16 * a + b) / 16 = a /\ (16 * a + b) mod 16 = b)%N.
Proof.
  intros H. split.
  - symmetry. apply (N.div_unique _ 16 a b); lia.
  - symmetry. apply (N.mod_unique _ 16 a b); lia.
Qed.
Lemma bin_pairs n : forall s, is_nibbles n -> pairs_to_bytes n = Ok s -> bin_to_nibbles s = n /\ is_bytes s.
Proof.
  remember (length n) as k eqn:Hk. revert n Hk.
  induction k as [k IH] using lt_wf_ind. intros n -> s Hn E.
  destruct n as [|a [|b n]]; cbn [pairs_to_bytes] in E; try discriminate.
  - injection E as <-. split; [reflexivity|constructor].
  - destruct (pairs_to_bytes n) as [r|] eqn:Er; [|discriminate]. cbn [bind] in E. injection E as <-.
    inversion Hn as [|? ? Ha Hn1]; inversion Hn1 as [|? ? Hb Hn2]; subst.
    destruct (IH (length n) ltac:(cbn [length]; lia) n eq_refl r Hn2 Er) as [E1 E2].
    destruct (div_mod_16 a b Hb) as [D M]. cbn [bin_to_nibbles]. rewrite D, M, E1.
    split; [reflexivity|]. constructor; [lia|exact E2].
Qed.
Lemma pairs_even n : is_nibbles n -> Nat.odd (length n) = false -> exists s, pairs_to_bytes n = Ok s.
Proof.
  remember (length n) as k eqn:Hk. revert n Hk.
  induction k as [k IH] using lt_wf_ind. intros n -> Hn Ho.
  destruct n as [|a [|b n]]; cbn [pairs_to_bytes length] in *; [eauto|discriminate|].
  inversion Hn as [|? ? Ha Hn1]; inversion Hn1 as [|? ? Hb Hn2]; subst.
  destruct (IH (length n) ltac:(lia) n eq_refl Hn2) as [s ->]; [|cbn [bind]; eauto].
  rewrite <- Ho. change (S (S (length n))) with (2 + length n). rewrite Nat.odd_add. simpl. destruct (Nat.odd (length n)); reflexivity.
Qed.
Theorem C16_nibbles_to_bin : forall n s, nibbles_to_bin n = Ok s -> bin_to_nibbles s = n /\ is_bytes s.
Proof.
  intros n s E. unfold nibbles_to_bin in E.
  destruct (existsb _ n) eqn:Ex; [discriminate|]. destruct (Nat.odd (length n)) eqn:Eo; [discriminate|].
  apply bin_pairs; auto. apply Forall_forall. intros x Hx.
  apply Bool.not_true_iff_false in Ex. destruct (N.ltb_spec 15 x); [|lia].
  destruct Ex. apply existsb_exists. exists x. split; auto. apply N.ltb_lt. auto.
Qed.

(** A packed key: nibbles, possibly followed by the terminator *)
Definition key_of (n : nibbles) (term : bool) : nibbles := if term then n ++ [NIBBLE_TERMINATOR] else n.

Lemma has_terminator_app n : has_terminator (n ++ [NIBBLE_TERMINATOR]) = true.
Proof. unfold has_terminator. rewrite rev_app_distr. reflexivity. Qed.
Lemma has_terminator_nibbles n : is_nibbles n -> has_terminator n = false.
Proof.
  intros H. unfold has_terminator. destruct (rev n) as [|x r] eqn:E; auto.
  apply N.eqb_neq. intros ->. unfold is_nibbles in H. rewrite Forall_forall in H.
  assert (Hin : In NIBBLE_TERMINATOR n) by (apply in_rev; rewrite E; left; auto).
  specialize (H _ Hin). unfold NIBBLE_TERMINATOR in H. lia.
Qed.
Lemma has_terminator_key n t : is_nibbles n -> has_terminator (key_of n t) = t.
Proof. destruct t; simpl; [intros; apply has_terminator_app|apply has_terminator_nibbles]. Qed.
Lemma strip_key n t : is_nibbles n -> (if has_terminator (key_of n t) then removelast (key_of n t) else key_of n t) = n.
Proof.
  intros H. rewrite has_terminator_key by auto. destruct t; simpl; [apply removelast_last|reflexivity].
Qed.
Lemma without_terminator_key n t : is_nibbles n -> without_terminator (key_of n t) = n.
Proof. apply strip_key. Qed.

Lemma is_bytes_forallb s : is_bytes s -> forallb (fun b => (b <? 256)%N) s = true.
Proof. intros H. apply forallb_forall. unfold is_bytes in H. rewrite Forall_forall in H. intros x Hx. apply N.ltb_lt. auto. Qed.

(** C16: packing a key accepted by pack_nibbles (any but the empty one) and unpacking it gives
    the key back, with or without terminator. *)
Theorem C16_pack_roundtrip : forall n term, is_nibbles n -> key_of n term <> [] ->
  exists s, pack_nibbles (key_of n term) = Ok s /\ is_bytes s /\ unpack_to_nibbles s = Ok (key_of n term).
Proof.
  intros n t Hn Hne. unfold pack_nibbles. rewrite (strip_key n t Hn), (has_terminator_key n t Hn).
  destruct (key_of n t) as [|k0 kr] eqn:Ek; [congruence|]. rewrite <- Ek. clear k0 kr Ek Hne.
  set (flags := if t then 2%N else 0%N).
  assert (Hfl : (flags = 2 \/ flags = 0)%N) by (unfold flags; destruct t; auto).
  set (n2 := if Nat.odd (length n) then (flags + 1)%N :: n else flags :: 0%N :: n).
  assert (Hn2 : is_nibbles n2).
  { unfold n2. destruct (Nat.odd (length n)); repeat (constructor; [destruct Hfl as [-> | ->]; lia|]); exact Hn. }
  destruct (pairs_even n2 Hn2) as [s Es].
  { unfold n2. destruct (Nat.odd (length n)) eqn:Eo; cbn [length].
    - rewrite Nat.odd_succ, <- Nat.negb_odd, Eo. reflexivity.
    - rewrite Nat.odd_succ, Nat.even_succ. exact Eo. }
  destruct (bin_pairs n2 s Hn2 Es) as [Eb Hb].
  exists s. rewrite Es. cbn [bind]. unfold to_byte_string. rewrite (is_bytes_forallb s Hb).
  split; [reflexivity|]. split; [exact Hb|].
  unfold unpack_to_nibbles. rewrite Eb. unfold n2. f_equal.
  destruct (Nat.odd (length n)); unfold flags; destruct t; reflexivity.
Qed.

Theorem C16_pack_injective : forall n t n' t' s, is_nibbles n -> is_nibbles n' ->
  pack_nibbles (key_of n t) = Ok s -> pack_nibbles (key_of n' t') = Ok s -> n = n' /\ t = t'.
Proof.
  intros n t n' t' s Hn Hn' E E'.
  assert (key_of n t <> []) as N1 by (intros X; rewrite X in E; discriminate).
  assert (key_of n' t' <> []) as N2 by (intros X; rewrite X in E'; discriminate).
  destruct (C16_pack_roundtrip n t Hn N1) as (s1 & P1 & _ & U1).
  destruct (C16_pack_roundtrip n' t' Hn' N2) as (s2 & P2 & _ & U2).
  rewrite E in P1. injection P1 as <-. rewrite E' in P2. injection P2 as <-.
  rewrite U1 in U2. injection U2 as U2. split.
  - rewrite <- (without_terminator_key n t Hn), U2. apply without_terminator_key. exact Hn'.
  - rewrite <- (has_terminator_key n t Hn), U2. apply has_terminator_key. exact Hn'.
Qed.

Example ex_C16 : is_nibbles [1; 2; 15]%N /\ pack_nibbles (key_of [1; 2; 15]%N true) = Ok [49; 47]%N /\
  pack_nibbles (key_of [1; 2]%N false) = Ok [0; 18]%N /\ pack_nibbles (key_of [] true) = Ok [32]%N /\
  bin_to_nibbles [104; 101]%N = [6; 8; 6; 5]%N.
Proof. split; [repeat constructor|]. repeat split. Qed.

Print Assumptions C15_roundtrip.
Print Assumptions C15_encodes.
Print Assumptions C15_injective.
Print Assumptions C15_prefix_free.
Print Assumptions C15_decode_total.
Print Assumptions C15_decode_injective_refuted.
Print Assumptions C16_bin_roundtrip.
Print Assumptions C16_bin_injective.
Print Assumptions C16_nibbles_to_bin.
Print Assumptions C16_pack_roundtrip.
Print Assumptions C16_pack_injective.
