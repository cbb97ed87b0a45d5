(** C108: the serializer without field names. *)
From Coq Require Import Ascii List Arith Bool Lia.
From Verif Require Import Compact_Model Compact_Spec.
Import ListNotations.

Section Compact.
Variable V : Type.
Variable delim : ascii.
Variable enc : nat -> V -> text.
Variable dec : nat -> text -> V.
Notation get := (get V).
Notation put := (put V).
Notation join := (join delim).
Notation split := (split delim).
Notation read := (read V dec).
Notation serialize := (serialize V delim enc).
Notation deserialize := (deserialize V delim dec).
Notation stringify := (stringify V enc).
Notation destringify := (destringify V dec).

Lemma get_put d n v m : get (put d n v) m = if n =? m then v else get d m.
Proof.
  induction d as [|[k w] q IH]; cbn; [reflexivity|]. destruct (k =? n) eqn:E; cbn.
  - apply Nat.eqb_eq in E; subst. destruct (n =? m); reflexivity.
  - rewrite IH. destruct (k =? m) eqn:F; [|reflexivity]. apply Nat.eqb_eq in F; subst. rewrite Nat.eqb_sym, E. reflexivity.
Qed.
Lemma keys_put d n v : ~ In n (map fst d) -> map fst (put d n v) = map fst d ++ [n].
Proof.
  induction d as [|[k w] q IH]; cbn; [reflexivity|]. intros H. destruct (k =? n) eqn:E; [apply Nat.eqb_eq in E; tauto|].
  cbn. rewrite IH by tauto. reflexivity.
Qed.
Lemma split_no t : ~ In delim t -> split t = [t].
Proof.
  induction t as [|c q IH]; cbn; [reflexivity|]. intros H. destruct (Ascii.eqb c delim) eqn:E; [apply Ascii.eqb_eq in E; tauto|]. rewrite IH by tauto. reflexivity.
Qed.
Lemma split_app t u : ~ In delim t -> split (t ++ delim :: u) = t :: split u.
Proof.
  induction t as [|c q IH]; intros H; cbn; [rewrite Ascii.eqb_refl; reflexivity|].
  destruct (Ascii.eqb c delim) eqn:E; [apply Ascii.eqb_eq in E; subst; elim H; left; reflexivity|]. rewrite IH; [reflexivity|]. intros I. apply H. right. exact I.
Qed.
Lemma split_join l : l <> [] -> (forall t, In t l -> ~ In delim t) -> split (join l) = l.
Proof.
  induction l as [|t q IH]; [congruence|]. intros _ H. destruct q as [|u q].
  - cbn. apply split_no, H. left. reflexivity.
  - change (join (t :: u :: q)) with (t ++ delim :: join (u :: q)). rewrite split_app by (apply H; left; reflexivity).
    f_equal. apply IH; [discriminate|]. intros x I. apply H. right. exact I.
Qed.
Lemma read_gets fs : forall items r, NoDup (map fname fs) -> (forall f, In f fs -> ~ In (fname f) (map fst r)) -> length items = length fs ->
  exists r', read fs items r = Some r' /\ map fst r' = map fst r ++ map fname fs /\
  (forall n, ~ In n (map fname fs) -> get r' n = get r n) /\
  (forall i f t, nth_error fs i = Some f -> nth_error items i = Some t -> get r' (fname f) = destringify (fname f) t).
Proof.
  induction fs as [|f fs IH]; intros [|t items] r N D L; try discriminate.
  - exists r. cbn. rewrite app_nil_r. repeat split; auto. intros [|i] f t H; discriminate.
  - cbn [Compact_Model.read]. inversion N as [|? ? A B]; subst. assert (Df : ~ In (fname f) (map fst r)) by (apply D; left; reflexivity).
    destruct (IH items (put r (fname f) (destringify (fname f) t))) as (r' & E & K & G & H); auto.
    + intros g I. rewrite keys_put by exact Df. intros J. apply in_app_or in J. destruct J as [J|[J|[]]]; [eapply D; [right; exact I|exact J]|].
      apply A. rewrite J. apply in_map. exact I.
    + exists r'. split; [exact E|]. split; [rewrite K, keys_put, <- app_assoc by exact Df; reflexivity|]. split.
      * intros n I. cbn in I. rewrite G by tauto. rewrite get_put. destruct (fname f =? n) eqn:F; [apply Nat.eqb_eq in F; tauto|reflexivity].
      * intros [|i] g u P Q; cbn in P, Q; [|eauto]. injection P as <-. injection Q as <-. rewrite G by exact A. rewrite get_put, Nat.eqb_refl. reflexivity.
Qed.
Lemma stringify_ok fs d f : fits delim enc dec fs d -> In f fs ->
  ~ In delim (stringify (fname f) (get d (fname f))) /\ destringify (fname f) (stringify (fname f) (get d (fname f))) = get d (fname f).
Proof.
  intros F I. destruct (get d (fname f)) as [v|] eqn:E; cbn; [|split; [intros []|reflexivity]].
  destruct (F f v I E) as (A & B & C). split; [exact B|]. unfold Compact_Model.destringify. destruct (enc (fname f) v) as [|c q] eqn:Q; [congruence|]. rewrite C. reflexivity.
Qed.
(** What is written is read back: the same value for every field, None for those without, and no other names *)
Theorem C108_roundtrip_partial : forall fs d, fs <> [] -> NoDup (map fname fs) -> fits delim enc dec fs d ->
  exists r, deserialize fs (serialize fs d) = Some r /\ map fst r = map fname fs /\ forall f, In f fs -> get r (fname f) = get d (fname f).
Proof.
  intros fs d Ne N F. unfold Compact_Model.deserialize, Compact_Model.serialize. rewrite split_join.
  - destruct (read_gets fs (map (fun f => stringify (fname f) (get d (fname f))) fs) []) as (r & E & K & _ & H); auto; [rewrite map_length; reflexivity|].
    exists r. split; [exact E|]. split; [exact K|]. intros f I. destruct (In_nth_error _ _ I) as [i P].
    rewrite (H i f (stringify (fname f) (get d (fname f))) P); [apply (stringify_ok fs d f F I)|]. rewrite nth_error_map, P. reflexivity.
  - destruct fs; [congruence|discriminate].
  - intros t I. apply in_map_iff in I. destruct I as (f & <- & J). apply (stringify_ok fs d f F J).
Qed.
(** Records that fit and are written alike have the same values *)
Theorem C108_injective_partial : forall fs d e, fs <> [] -> NoDup (map fname fs) -> fits delim enc dec fs d -> fits delim enc dec fs e ->
  serialize fs d = serialize fs e -> forall f, In f fs -> get d (fname f) = get e (fname f).
Proof.
  intros fs d e Ne N F G E f I. destruct (C108_roundtrip_partial fs d Ne N F) as (r & A & _ & B). destruct (C108_roundtrip_partial fs e Ne N G) as (s & C & _ & D).
  rewrite E in A. rewrite A in C. injection C as <-. rewrite <- B, <- D by exact I. reflexivity.
Qed.
Lemma read_app fs : forall gs items r, length items = length fs -> read (fs ++ gs) items r = match read fs items r with Some r' => read gs [] r' | None => None end.
Proof. induction fs as [|f fs IH]; intros gs [|t items] r L; try discriminate; [reflexivity|]. cbn. apply IH. injection L as L. exact L. Qed.
Lemma read_missing gs : forall r, (forall g, In g gs -> dotted g = false) -> exists r', read gs [] r = Some r' /\
  (forall g, In g gs -> get r' (fname g) = None) /\ forall n, ~ In n (map fname gs) -> get r' n = get r n.
Proof.
  induction gs as [|g gs IH]; intros r H; [exists r; cbn; repeat split; auto; intros g []|].
  cbn [Compact_Model.read]. rewrite (H g (or_introl eq_refl)). destruct (IH (put r (fname g) None)) as (r' & E & A & B); [intros x I; apply H; right; exact I|].
  exists r'. split; [exact E|]. split.
  - intros x [<-|I]; [|auto]. destruct (in_dec Nat.eq_dec (fname g) (map fname gs)) as [J|J].
    + apply in_map_iff in J. destruct J as (y & <- & J). auto.
    + rewrite B by exact J. rewrite get_put, Nat.eqb_refl. reflexivity.
  - intros n I. cbn in I. rewrite B by tauto. rewrite get_put. destruct (fname g =? n) eqn:F; [apply Nat.eqb_eq in F; tauto|reflexivity].
Qed.
(** A text written before fields were added at the end is still read: the old values, None for the new fields *)
Theorem C108_more_fields_partial : forall fs gs d, fs <> [] -> NoDup (map fname (fs ++ gs)) -> fits delim enc dec fs d -> (forall g, In g gs -> dotted g = false) ->
  exists r, deserialize (fs ++ gs) (serialize fs d) = Some r /\ (forall f, In f fs -> get r (fname f) = get d (fname f)) /\ forall g, In g gs -> get r (fname g) = None.
Proof.
  intros fs gs d Ne N F D. rewrite map_app in N.
  assert (N1 : NoDup (map fname fs) /\ forall x, In x (map fname fs) -> ~ In x (map fname gs)).
  { clear - N. induction (map fname fs) as [|x l IH]; cbn in *; [split; [constructor|intros x []]|]. inversion N as [|? ? A B]; subst. destruct (IH B) as [P Q].
    split; [constructor; [intros I; apply A, in_or_app; auto|exact P]|]. intros y [<-|I]; [intros J; apply A, in_or_app; auto|auto]. }
  destruct N1 as [N1 N2]. destruct (C108_roundtrip_partial fs d Ne N1 F) as (r & A & _ & B).
  unfold Compact_Model.deserialize in *.
  assert (S1 : split (serialize fs d) = map (fun f => stringify (fname f) (get d (fname f))) fs).
  { apply split_join; [destruct fs; [congruence|discriminate]|]. intros t I. apply in_map_iff in I. destruct I as (f & <- & J). apply (stringify_ok fs d f F J). }
  rewrite S1 in *. rewrite read_app by (rewrite map_length; reflexivity). rewrite A. destruct (read_missing gs r D) as (r' & E & G & H).
  exists r'. split; [exact E|]. split; [|exact G]. intros f I. rewrite H by (apply N2, in_map, I). apply B, I.
Qed.
(** but a field with a dot in its name at the end makes the old text unreadable *)
Theorem C108_dotted_refuted : forall fs g d, fs <> [] -> NoDup (map fname fs) -> fits delim enc dec fs d -> dotted g = true ->
  deserialize (fs ++ [g]) (serialize fs d) = None.
Proof.
  intros fs g d Ne N F D. destruct (C108_roundtrip_partial fs d Ne N F) as (r & A & _ & _). unfold Compact_Model.deserialize in *.
  assert (S1 : split (serialize fs d) = map (fun f => stringify (fname f) (get d (fname f))) fs).
  { apply split_join; [destruct fs; [congruence|discriminate]|]. intros t I. apply in_map_iff in I. destruct I as (f & <- & J). apply (stringify_ok fs d f F J). }
  rewrite S1 in *. rewrite read_app by (rewrite map_length; reflexivity). rewrite A. cbn. rewrite D. reflexivity.
Qed.
(** a value written with a delimiter spills into the next field, whose value is lost *)
Theorem C108_delimiter_refuted : forall a b v w x y, fname a <> fname b -> enc (fname a) v = x ++ delim :: y -> ~ In delim x -> ~ In delim y ->
  exists r, deserialize [a; b] (serialize [a; b] [(fname a, Some v); (fname b, Some w)]) = Some r /\
  get r (fname a) = destringify (fname a) x /\ get r (fname b) = destringify (fname b) y.
Proof.
  intros a b v w x y N E X Y. unfold Compact_Model.serialize, Compact_Model.deserialize. cbn [map Compact_Model.get]. rewrite !Nat.eqb_refl.
  assert (Nb : (fname a =? fname b) = false) by (apply Nat.eqb_neq; exact N). rewrite Nb. cbn [Compact_Model.stringify Compact_Model.join]. rewrite E, <- app_assoc. cbn [app].
  rewrite split_app by exact X. rewrite split_app by exact Y. cbn [Compact_Model.read]. eexists. split; [reflexivity|].
  rewrite !get_put, !Nat.eqb_refl. rewrite (Nat.eqb_sym (fname b)), Nb. auto.
Qed.
(** a value written as the empty text comes back as None *)
Theorem C108_empty_refuted : forall a v, enc (fname a) v = [] ->
  exists r, deserialize [a] (serialize [a] [(fname a, Some v)]) = Some r /\ get r (fname a) = None.
Proof.
  intros a v E. unfold Compact_Model.serialize, Compact_Model.deserialize. cbn [map Compact_Model.get]. rewrite Nat.eqb_refl. cbn [Compact_Model.stringify Compact_Model.join]. rewrite E.
  cbn. eexists. split; [reflexivity|]. cbn. rewrite Nat.eqb_refl. reflexivity.
Qed.
End Compact.

(** *** texts as values *)
Definition bar : ascii := "|"%char.
Definition ex_fs : list field := [Field 1 false; Field 2 true; Field 3 false].
Definition ex_d : dict text := [(3, Some ["c"%char]); (1, Some ["a"%char; "b"%char])].
Example C108_ex :
  serialize text bar (fun _ t => t) ex_fs ex_d = ["a"; "b"; "|"; "|"; "c"]%char /\
  deserialize text bar (fun _ t => t) ex_fs ["a"; "b"; "|"; "|"; "c"]%char = Some [(1, Some ["a"; "b"]%char); (2, None); (3, Some ["c"]%char)].
Proof. split; reflexivity. Qed.
Example C108_fits_ex : fits bar (fun _ t => t) (fun _ t => t) ex_fs ex_d /\ NoDup (map fname ex_fs).
Proof.
  split.
  - intros f v I E. cbn in I. destruct I as [<-|[<-|[<-|[]]]]; cbn in E; try discriminate; injection E as <-;
      (split; [discriminate|split; [cbn; intuition discriminate|reflexivity]]).
  - cbn. repeat constructor; cbn; intuition discriminate.
Qed.
Example C108_spill_ex : deserialize text bar (fun _ t => t) [Field 1 false; Field 2 false] (serialize text bar (fun _ t => t) [Field 1 false; Field 2 false] [(1, Some ["a"; "|"; "b"]%char); (2, Some ["c"]%char)])
  = Some [(1, Some ["a"]%char); (2, Some ["b"]%char)].
Proof. reflexivity. Qed.

Print Assumptions C108_roundtrip_partial.
Print Assumptions C108_injective_partial.
Print Assumptions C108_more_fields_partial.
Print Assumptions C108_dotted_refuted.
Print Assumptions C108_delimiter_refuted.
