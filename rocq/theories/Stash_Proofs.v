(** The invariant of the stashing router. *)
From Coq Require Import List Arith ZArith Bool Lia.
From Verif Require Import Stash_Model Stash_Spec.
Import ListNotations.
Local Open Scope Z_scope.

(** ** Facts about logs *)
Lemma place_snoc l x id : place_of (l ++ [x]) id =
  if (m_id (fst (about x)) =? id)%nat then Some (snd (about x)) else place_of l id.
Proof. unfold place_of. rewrite fold_left_app. reflexivity. Qed.
Lemma expected_snoc cf c l x : expected cf c (l ++ [x]) = match x with
    | LStash m c' => if c' =? c then if sorted_code cf c then insert m (expected cf c l) else expected cf c l ++ [m] else expected cf c l
    | LTake m c' => if c' =? c then filter (fun y => negb (m_id y =? m_id m)%nat) (expected cf c l) else expected cf c l
    | _ => expected cf c l end.
Proof. unfold expected. rewrite fold_left_app. reflexivity. Qed.
Lemma log_ok_snoc cf l x : log_ok cf l -> entry_ok cf l x -> log_ok cf (l ++ [x]).
Proof.
  intros H E l1 y l2 Eq. destruct l2 as [|z l2] using rev_ind.
  - apply app_inj_tail in Eq as (<- & <-). exact E.
  - clear IHl2. change (l1 ++ y :: l2 ++ [z]) with (l1 ++ (y :: l2) ++ [z]) in Eq. rewrite app_assoc in Eq.
    apply app_inj_tail in Eq as (-> & _). eapply H. reflexivity.
Qed.
Lemma log_ok_pre cf l x : log_ok cf (l ++ [x]) -> log_ok cf l /\ entry_ok cf l x.
Proof.
  intros H. split; [|apply (H l x []); reflexivity].
  intros l1 y l2 ->. apply (H l1 y (l2 ++ [x])). rewrite <- app_assoc. reflexivity.
Qed.
Lemma insert_in m l x : In x (insert m l) <-> x = m \/ In x l.
Proof.
  induction l as [|y l IH]; simpl; [intuition congruence|].
  destruct (m_key m <? m_key y); simpl; [intuition congruence|]. rewrite IH. intuition congruence.
Qed.
Lemma insert_nodup m l : ~ In (m_id m) (map m_id l) -> NoDup (map m_id l) -> NoDup (map m_id (insert m l)).
Proof.
  induction l as [|y l IH]; simpl; intros N D; [apply NoDup_cons; assumption|].
  destruct (m_key m <? m_key y); [apply NoDup_cons; assumption|]. simpl. inversion D as [|? ? D1 D2]; subst.
  apply NoDup_cons; [|apply IH; auto]. intros X. apply in_map_iff in X as (z & Z1 & Z2). apply insert_in in Z2 as [->|Z2].
  - apply N. left. symmetry. exact Z1.
  - apply D1. rewrite <- Z1. apply in_map, Z2.
Qed.
Lemma filter_nodup f (l : list msg) : NoDup (map m_id l) -> NoDup (map m_id (filter f l)).
Proof.
  induction l as [|y l IH]; simpl; [auto|]. intros D. inversion D as [|? ? D1 D2]; subst.
  destruct (f y); simpl; [|auto]. apply NoDup_cons; [|auto]. intros X. apply D1.
  apply in_map_iff in X as (z & Z1 & Z2). apply filter_In in Z2 as (Z2 & _). rewrite <- Z1. apply in_map, Z2.
Qed.

(** the queues of a good log hold exactly the stashed messages *)
Record holds (cf : config) (l : list entry) : Prop := {
  h_nodup : forall c, NoDup (map m_id (expected cf c l));
  h_place : forall c id, In id (map m_id (expected cf c l)) <-> place_of l id = Some (Stashed c);
  h_offer : forall c m, In m (expected cf c l) -> In (LOffer m) l;
  h_some : forall m, In (LOffer m) l -> place_of l (m_id m) <> None;
  h_unique : forall m m', In (LOffer m) l -> In (LOffer m') l -> m_id m = m_id m' -> m = m' }.

Lemma log_holds cf l : log_ok cf l -> holds cf l.
Proof.
  induction l as [|x l IH] using rev_ind; intros O.
  { constructor; simpl; try contradiction.
    - intros. apply NoDup_nil.
    - intros c id. unfold place_of. simpl. split; [contradiction|discriminate]. }
  apply log_ok_pre in O as (O & E). destruct (IH O) as [A B C D U]. clear IH.
  assert (K : In (LOffer (fst (about x))) l \/ x = LOffer (fst (about x))).
  { destruct x; simpl in E |- *; try (left; apply E; fail); [right; reflexivity|].
    destruct E as (q & E). left. apply (C c). rewrite E. left. reflexivity. }
  assert (Sm : forall m, In (LOffer m) (l ++ [x]) -> place_of (l ++ [x]) (m_id m) <> None).
  { intros m M. rewrite place_snoc. destruct (Nat.eqb_spec (m_id (fst (about x))) (m_id m)) as [Ei|Ei]; [discriminate|].
    apply in_app_or in M as [M|[M|[]]]; [apply D, M|]. rewrite M in Ei. destruct Ei. reflexivity. }
  assert (Un : forall m m', In (LOffer m) (l ++ [x]) -> In (LOffer m') (l ++ [x]) -> m_id m = m_id m' -> m = m').
  { intros m m' M M' Ei. apply in_app_or in M as [M|[M|[]]]; apply in_app_or in M' as [M'|[M'|[]]].
    - apply U; assumption.
    - subst x. simpl in E. destruct (D m M). rewrite Ei. exact E.
    - subst x. simpl in E. destruct (D m' M'). rewrite <- Ei. exact E.
    - congruence. }
  assert (Keep : (forall c, expected cf c (l ++ [x]) = expected cf c l) ->
                 (forall c, place_of l (m_id (fst (about x))) <> Some (Stashed c)) -> (forall c, snd (about x) <> Stashed c) ->
                 holds cf (l ++ [x])).
  { intros Ke Kp Ks. constructor; auto.
    - intros c. rewrite Ke. apply A.
    - intros c id. rewrite Ke, B, place_snoc. destruct (Nat.eqb_spec (m_id (fst (about x))) id) as [<-|Ni]; [|tauto].
      split; intros X; [destruct (Kp c X)|]. injection X as X. destruct (Ks c X).
    - intros c m. rewrite Ke. intros M. apply in_or_app. left. apply (C c m M). }
  destruct x; try (apply Keep; [intros c0; rewrite expected_snoc; reflexivity| |discriminate]; simpl in E |- *;
    intros c0; try (rewrite E; discriminate); try (destruct E as (_ & E); rewrite E; discriminate);
    try (destruct E as (_ & E & _); rewrite E; discriminate);
    destruct E as (_ & [(E & _)|(E & _)]); rewrite E; discriminate).
  - (* stash *)
    simpl in E, K. destruct E as (E1 & E2 & _).
    assert (N : forall c0, ~ In (m_id m) (map m_id (expected cf c0 l))) by (intros c0 X; apply B in X; congruence).
    constructor; auto.
    + intros c0. rewrite expected_snoc. destruct (Z.eqb_spec c c0) as [<-|Nc]; [|apply A].
      destruct (sorted_code cf c); [apply insert_nodup; auto|].
      rewrite map_app. simpl. apply NoDup_Add with (a := m_id m) (l := map m_id (expected cf c l)); [|split; auto].
      pose proof (Add_app (m_id m) (map m_id (expected cf c l)) []) as X. rewrite app_nil_r in X. exact X.
    + intros c0 id. rewrite expected_snoc, place_snoc. simpl. destruct (Z.eqb_spec c c0) as [<-|Nc].
      * assert (In id (map m_id (if sorted_code cf c then insert m (expected cf c l) else expected cf c l ++ [m])) <->
          id = m_id m \/ In id (map m_id (expected cf c l))).
        { destruct (sorted_code cf c).
          - rewrite !in_map_iff. split.
            + intros (z & Z1 & Z2). apply insert_in in Z2 as [->|Z2]; [left; auto|right; exists z; auto].
            + intros [->|(z & Z1 & Z2)]; [exists m; split; [reflexivity|apply insert_in; left; reflexivity]|exists z; split; [exact Z1|apply insert_in; right; exact Z2]].
          - rewrite map_app, in_app_iff. simpl. intuition congruence. }
        rewrite H, B. destruct (Nat.eqb_spec (m_id m) id) as [Ei|Ei]; split; auto; intros [X|X]; [congruence|exact X].
      * rewrite B. destruct (Nat.eqb_spec (m_id m) id) as [<-|Ei]; [|tauto]. rewrite E2. split; [discriminate|congruence].
    + intros c0 y. rewrite expected_snoc. intros Y. apply in_or_app. left. destruct (Z.eqb_spec c c0) as [<-|Nc]; [|apply (C c0), Y].
      destruct (sorted_code cf c); [apply insert_in in Y as [->|Y]|apply in_app_or in Y as [Y|[<-|[]]]]; try exact E1; apply (C c), Y.
  - (* take *)
    simpl in E, K. destruct E as (q & E).
    assert (Pm : place_of l (m_id m) = Some (Stashed c)) by (apply B; rewrite E; left; reflexivity).
    constructor; auto.
    + intros c0. rewrite expected_snoc. destruct (c =? c0); [apply filter_nodup|]; apply A.
    + intros c0 id. rewrite expected_snoc, place_snoc. simpl. destruct (Z.eqb_spec c c0) as [<-|Nc].
      * destruct (Nat.eqb_spec (m_id m) id) as [<-|Ei].
        -- split; [|discriminate]. intros X. apply in_map_iff in X as (z & Z1 & Z2). apply filter_In in Z2 as (_ & Z2).
           rewrite Z1, Nat.eqb_refl in Z2. discriminate.
        -- rewrite <- B, !in_map_iff. split; intros (z & Z1 & Z2); exists z; (split; [exact Z1|]).
           ++ apply filter_In in Z2. apply Z2.
           ++ apply filter_In. split; [exact Z2|]. rewrite Z1. destruct (Nat.eqb_spec id (m_id m)); [congruence|reflexivity].
      * rewrite B. destruct (Nat.eqb_spec (m_id m) id) as [<-|Ei]; [|tauto]. rewrite Pm. split; [congruence|discriminate].
    + intros c0 y. rewrite expected_snoc. intros Y. apply in_or_app. left. apply (C c0).
      destruct (c =? c0); [apply filter_In in Y; apply Y|exact Y].
Qed.

(** ** The invariant of the state *)
Record inv (cf : config) (s : state) : Prop := {
  i_queue : forall c, get c (queues s) = expected cf c (log s);
  i_fresh : forall id, (next s <= id)%nat -> place_of (log s) id = None;
  i_log : log_ok cf (log s);
  i_raised : st s = Raised -> exists m, In (LRaise m) (log s) }.

Definition flight (s : state) (id : nat) : Prop :=
  match place_of (log s) id with Some New | Some Calling | Some Taken => True | _ => False end.

(** [s'] is reached from [s] by handling exactly the messages [D] of those in flight *)
Record good (cf : config) (s s' : state) (D : nat -> Prop) : Prop := {
  g_inv : inv cf s';
  g_log : exists seg, log s' = log s ++ seg;
  g_run : is_running s' = true -> is_running s = true;
  g_keep : forall id, flight s id -> ~ D id -> place_of (log s') id = place_of (log s) id;
  g_done : is_running s' = true -> forall id, flight s' id -> flight s id /\ ~ D id }.

Lemma good_refl cf s : inv cf s -> good cf s s (fun _ => False).
Proof. intros I. constructor; auto; [exists []; symmetry; apply app_nil_r]. Qed.
Lemma good_weaken cf s s' D D' : good cf s s' D -> (forall id, D id <-> D' id) -> good cf s s' D'.
Proof.
  intros [A B C E F] W. constructor; auto.
  - intros id X Y. apply E; [exact X|]. rewrite W. exact Y.
  - intros R id X. destruct (F R id X) as (G & H). split; [exact G|]. rewrite <- W. exact H.
Qed.
Lemma good_trans cf s s1 s2 D1 D2 : good cf s s1 D1 -> good cf s1 s2 D2 -> good cf s s2 (fun id => D1 id \/ D2 id).
Proof.
  intros [A1 (l1 & B1) C1 E1 F1] [A2 (l2 & B2) C2 E2 F2]. constructor; auto.
  - exists (l1 ++ l2). rewrite B2, B1, app_assoc. reflexivity.
  - intros id X N. assert (P : place_of (log s1) id = place_of (log s) id) by (apply E1; tauto).
    rewrite <- P. apply E2; [|tauto]. unfold flight. rewrite P. exact X.
  - intros R id X. destruct (F2 R id X) as (G & H). destruct (F1 (C2 R) id G) as (G1 & H1). tauto.
Qed.
Lemma good_seq cf s s1 s2 : good cf s s1 (fun _ => False) -> good cf s1 s2 (fun _ => False) -> good cf s s2 (fun _ => False).
Proof. intros A B. eapply good_weaken; [exact (good_trans cf s s1 s2 _ _ A B)|]. tauto. Qed.
(** a state that stops *)
Lemma good_halt cf s l : inv cf s -> good cf s (State (queues s) (next s) l OutOfScript (log s)) (fun _ => False).
Proof.
  intros [A B C Ra]. constructor; [constructor; try assumption; discriminate| | | |].
  - exists []. simpl. symmetry. apply app_nil_r.
  - discriminate.
  - reflexivity.
  - discriminate.
Qed.

Lemma get_put c l q c' : get c' (put c l q) = if c' =? c then l else get c' q.
Proof.
  induction q as [|(c0, l0) q IH]; simpl.
  - reflexivity.
  - destruct (Z.eqb_spec c c0) as [<-|N]; simpl; [destruct (c' =? c); reflexivity|].
    rewrite IH. destruct (Z.eqb_spec c' c0) as [->|N']; [|reflexivity].
    destruct (Z.eqb_spec c0 c); congruence.
Qed.

(** adding one entry *)
Lemma good_entry cf s s' x : inv cf s -> st s' = st s -> log s' = log s ++ [x] -> (next s <= next s')%nat ->
  (forall c, get c (queues s') = expected cf c (log s ++ [x])) -> entry_ok cf (log s) x ->
  (m_id (fst (about x)) < next s')%nat ->
  inv cf s'.
Proof.
  intros [A B C Ra] S L N Q E F. constructor; rewrite ?L; auto; [|apply log_ok_snoc; assumption|].
  - intros id I. rewrite place_snoc. destruct (Nat.eqb_spec (m_id (fst (about x))) id); [lia|]. apply B. lia.
  - rewrite S. intros R. destruct (Ra R) as (m & M). exists m. apply in_or_app. left. exact M.
Qed.
Lemma offered_old cf s m : inv cf s -> In (LOffer m) (log s) -> (m_id m < next s)%nat.
Proof.
  intros [A B C Ra] O. destruct (Nat.lt_ge_cases (m_id m) (next s)); [assumption|].
  destruct (h_some cf (log s) (log_holds cf (log s) C) m O). apply B, H.
Qed.

(** the entry ends the handling of a message in flight *)
Lemma good_end cf s s' x : inv cf s -> inv cf s' -> is_running s' = is_running s \/ is_running s' = false -> log s' = log s ++ [x] ->
  (match snd (about x) with New | Calling | Taken => False | _ => True end) ->
  good cf s s' (fun id => id = m_id (fst (about x))).
Proof.
  intros I I' R L T. constructor; auto.
  - exists [x]. exact L.
  - destruct R as [R|R]; congruence.
  - intros id X N. rewrite L, place_snoc. destruct (Nat.eqb_spec (m_id (fst (about x))) id); congruence.
  - intros _ id. unfold flight. rewrite L, place_snoc. destruct (Nat.eqb_spec (m_id (fst (about x))) id) as [<-|N].
    + destruct (snd (about x)); contradiction.
    + intros X. split; [exact X|congruence].
Qed.

Lemma stash_good cf c m s : inv cf s -> In (LOffer m) (log s) -> place_of (log s) (m_id m) = Some Calling ->
  good cf s (stash cf c m s) (fun id => id = m_id m).
Proof.
  intros I O P. pose proof (offered_old cf s m I O) as Om. unfold stash. pose proof (i_queue cf s I c) as Q.
  destruct (Nat.leb_spec (limit cf) (length (get c (queues s)))) as [L|L].
  - apply (good_end cf s _ (LReject m c)); [exact I| |left; reflexivity|reflexivity|exact Logic.I].
    apply (good_entry cf s _ (LReject m c)); auto; [|simpl; rewrite <- Q; auto].
    intros c'. simpl. rewrite get_put, expected_snoc. destruct (Z.eqb_spec c' c) as [->|]; [exact Q|apply (i_queue cf s I)].
  - apply (good_end cf s _ (LStash m c)); [exact I| |left; reflexivity|reflexivity|exact Logic.I].
    apply (good_entry cf s _ (LStash m c)); auto; [|simpl; rewrite <- Q; auto].
    intros c'. simpl. rewrite get_put, expected_snoc, (Z.eqb_sym c' c). destruct (Z.eqb_spec c c') as [<-|]; [rewrite Q; reflexivity|apply (i_queue cf s I)].
Qed.

(** ** The functions *)
(** what [_process] does with a message in flight *)
Definition proc_ok (cf : config) (proc : nat -> msg -> state -> state * bool) : Prop := forall h m s,
  inv cf s -> is_running s = true -> In (LOffer m) (log s) ->
  (place_of (log s) (m_id m) = Some New /\ h = m_handler m \/ place_of (log s) (m_id m) = Some Taken /\ h = 0%nat) ->
  good cf s (fst (proc h m s)) (fun id => id = m_id m).

Section P.
Variable cf : config.
Variable proc : nat -> msg -> state -> state * bool.
Hypothesis Hp : proc_ok cf proc.

Lemma unstash_good m s : inv cf s -> is_running s = true -> In (LOffer m) (log s) -> place_of (log s) (m_id m) = Some Taken ->
  good cf s (fst (unstash cf proc m s)) (fun id => id = m_id m).
Proof.
  intros I R O P. unfold unstash. destruct (has_unstash cf) eqn:U; [|apply Hp; auto]. simpl.
  apply (good_end cf s _ (LInbox m)); [exact I| |left; reflexivity|reflexivity|exact Logic.I].
  apply (good_entry cf s _ (LInbox m)); auto; [|simpl; auto|simpl; apply (offered_old cf s m I O)].
  intros c. simpl. rewrite expected_snoc. apply (i_queue cf s I).
Qed.
Lemma unstash_list_good l : forall s, inv cf s -> NoDup (map m_id l) ->
  (forall m, In m l -> In (LOffer m) (log s) /\ place_of (log s) (m_id m) = Some Taken) ->
  good cf s (unstash_list cf proc l s) (fun id => In id (map m_id l)).
Proof.
  induction l as [|m l IH]; intros s I N T; simpl; [apply good_refl, I|].
  destruct (is_running s) eqn:R.
  - destruct (T m (or_introl eq_refl)) as (O & P). pose proof (unstash_good m s I R O P) as G.
    inversion N as [|? ? N1 N2]; subst.
    eapply good_weaken; [apply (good_trans cf s _ _ _ (fun id => In id (map m_id l)) G)|].
    + apply IH; [apply (g_inv _ _ _ _ G)|exact N2|]. intros y Y. destruct (T y (or_intror Y)) as (Oy & Py).
      assert (Ny : m_id y <> m_id m) by (intros E; apply N1; rewrite <- E; apply in_map, Y). split.
      * destruct (g_log _ _ _ _ G) as (seg & ->). apply in_or_app. left. exact Oy.
      * rewrite (g_keep _ _ _ _ G (m_id y)); [exact Py| |exact Ny]. unfold flight. rewrite Py. exact Logic.I.
    + intros id. simpl. intuition congruence.
  - (* stopped *)
    constructor; auto; [exists []; symmetry; apply app_nil_r|congruence].
Qed.

(** taking messages out of a queue *)
Lemma take_log c data : forall l rest, log_ok cf l -> expected cf c l = data ++ rest ->
  let l' := l ++ map (fun m => LTake m c) data in
  log_ok cf l' /\ expected cf c l' = rest /\ (forall c', c' <> c -> expected cf c' l' = expected cf c' l) /\
  (forall id, place_of l' id = if existsb (fun m => (m_id m =? id)%nat) data then Some Taken else place_of l id).
Proof.
  induction data as [|m data IH]; intros l rest O E; simpl in E |- *.
  { rewrite app_nil_r. auto. }
  assert (Em : entry_ok cf l (LTake m c)) by (exists (data ++ rest); exact E).
  assert (O1 : log_ok cf (l ++ [LTake m c])) by (apply log_ok_snoc; assumption).
  assert (N : NoDup (map m_id (m :: data ++ rest))) by (rewrite <- E; apply (h_nodup _ _ (log_holds cf l O))).
  simpl in N. inversion N as [|? ? N1 N2]; subst.
  assert (E1 : expected cf c (l ++ [LTake m c]) = data ++ rest).
  { rewrite expected_snoc, Z.eqb_refl, E. simpl. rewrite Nat.eqb_refl. simpl.
    assert (F : forall q, ~ In (m_id m) (map m_id q) -> filter (fun y => negb (m_id y =? m_id m)%nat) q = q).
    { clear. induction q as [|y q IH]; simpl; intros N; [reflexivity|].
      destruct (Nat.eqb_spec (m_id y) (m_id m)); [exfalso; apply N; left; assumption|]. simpl. rewrite IH; auto. }
    apply F. exact N1. }
  destruct (IH _ rest O1 E1) as (A & B & C & D). rewrite <- app_assoc in A, B, C, D. simpl in A, B, C, D.
  refine (conj A (conj B (conj _ _))).
  - intros c' Nc. rewrite (C c' Nc), expected_snoc. destruct (Z.eqb_spec c c'); [congruence|reflexivity].
  - intros id. rewrite D, place_snoc. simpl. destruct (m_id m =? id)%nat; simpl; [|reflexivity].
    destruct (existsb _ data); reflexivity.
Qed.
Lemma taken_good c data rest s : inv cf s -> get c (queues s) = data ++ rest ->
  let s1 := State (put c rest (queues s)) (next s) (script s) (st s) (log s ++ map (fun m => LTake m c) data) in
  inv cf s1 /\ NoDup (map m_id data) /\
  (forall m, In m data -> In (LOffer m) (log s1) /\ place_of (log s1) (m_id m) = Some Taken) /\
  (forall id, flight s id -> place_of (log s1) id = place_of (log s) id) /\
  (forall id, flight s1 id -> flight s id \/ In id (map m_id data)) /\
  (forall id, In id (map m_id data) -> ~ flight s id).
Proof.
  intros I Q s1. pose proof (i_queue cf s I c) as Qe. rewrite Q in Qe. symmetry in Qe.
  pose proof (i_log cf s I) as Lo. destruct (take_log c data (log s) rest Lo Qe) as (A & B & C & D).
  pose proof (log_holds cf (log s) Lo) as H.
  assert (Ex : forall id, existsb (fun m => (m_id m =? id)%nat) data = true <-> In id (map m_id data)).
  { intros id. rewrite existsb_exists, in_map_iff. split; intros (m & M1 & M2); exists m; [apply Nat.eqb_eq in M2|apply Nat.eqb_eq in M1]; auto. }
  assert (St : forall id, In id (map m_id data) -> place_of (log s) id = Some (Stashed c)).
  { intros id X. apply (h_place _ _ H). rewrite Qe, map_app. apply in_or_app. left. exact X. }
  assert (Nd : NoDup (map m_id (data ++ rest))) by (rewrite <- Qe; apply (h_nodup _ _ H)).
  refine (conj _ (conj _ (conj _ (conj _ (conj _ _))))).
  - constructor; simpl; [| |exact A|].
    + intros c'. rewrite get_put. destruct (Z.eqb_spec c' c) as [->|N]; [symmetry; exact B|].
      rewrite (C c' N). apply (i_queue cf s I).
    + intros id X. rewrite D. pose proof (i_fresh cf s I id X) as F.
      destruct (existsb _ data) eqn:E; [|exact F]. apply Ex, St in E. congruence.
    + intros R. destruct (i_raised cf s I R) as (m & M). exists m. apply in_or_app. left. exact M.
  - rewrite map_app in Nd. clear -Nd. induction (map m_id data) as [|x l IH]; [apply NoDup_nil|].
    simpl in Nd. inversion Nd; subst. apply NoDup_cons; [|auto]. intros X. apply H1, in_or_app. left. exact X.
  - intros m M. simpl. split.
    + apply in_or_app. left. apply (h_offer _ _ H c). rewrite Qe. apply in_or_app. left. exact M.
    + rewrite D. assert (E : existsb (fun x => (m_id x =? m_id m)%nat) data = true) by (apply Ex, in_map, M). rewrite E. reflexivity.
  - intros id X. simpl. rewrite D. destruct (existsb _ data) eqn:E; [|reflexivity].
    apply Ex, St in E. unfold flight in X. rewrite E in X. destruct X.
  - intros id. unfold flight. simpl. rewrite D. destruct (existsb _ data) eqn:E; [apply Ex in E; auto|auto].
  - intros id X. apply St in X. unfold flight. rewrite X. auto.
Qed.

Lemma after_take c data rest s s' : inv cf s -> get c (queues s) = data ++ rest ->
  let s1 := State (put c rest (queues s)) (next s) (script s) (st s) (log s ++ map (fun m => LTake m c) data) in
  good cf s1 s' (fun id => In id (map m_id data)) -> good cf s s' (fun _ => False).
Proof.
  intros I Q s1 G. destruct (taken_good c data rest s I Q) as (_ & _ & _ & K1 & K2 & K3). fold s1 in K1, K2, K3.
  destruct G as [A (seg & B) C D E]. constructor; auto.
  - exists (map (fun m => LTake m c) data ++ seg). rewrite B. unfold s1. simpl. rewrite app_assoc. reflexivity.
  - intros id X _. rewrite <- (K1 id X). apply D; [|intros Y; apply (K3 id Y X)].
    unfold flight. rewrite (K1 id X). exact X.
  - intros R id X. destruct (E R id X) as (F1 & F2). destruct (K2 id F1) as [Y|Y]; [auto|contradiction].
Qed.

Lemma all_code_good c s : inv cf s -> good cf s (all_code cf proc c s) (fun _ => False).
Proof.
  intros I. unfold all_code. destruct (get c (queues s)) as [|m q] eqn:Q; [apply good_refl, I|].
  assert (Q' : get c (queues s) = (m :: q) ++ []) by (rewrite app_nil_r; exact Q).
  apply (after_take c (m :: q) [] s _ I Q').
  destruct (taken_good c (m :: q) [] s I Q') as (I1 & N1 & T1 & _).
  apply (unstash_list_good (m :: q)); assumption.
Qed.
Lemma until_code_good fuel c : forall s, inv cf s -> good cf s (until_code cf proc fuel c s) (fun _ => False).
Proof.
  induction fuel as [|fuel IH]; intros s I; cbn [until_code].
  { apply good_halt. exact I. }
  destruct (is_running s) eqn:R; [|apply good_refl, I].
  destruct (get c (queues s)) as [|m q] eqn:Q; [apply good_refl, I|].
  destruct (taken_good c [m] q s I Q) as (I1 & N1 & T1 & _).
  destruct (T1 m (or_introl eq_refl)) as (O1 & P1).
  change (note (LTake m c) (with_queue c q s)) with
    (State (put c q (queues s)) (next s) (script s) (st s) (log s ++ map (fun m => LTake m c) [m])).
  set (s1 := State (put c q (queues s)) (next s) (script s) (st s) (log s ++ map (fun m => LTake m c) [m])) in *.
  pose proof (unstash_good m s1 I1 R O1 P1) as G.
  destruct (unstash cf proc m s1) as (s2, go) eqn:U. simpl in G.
  assert (G2 : good cf s s2 (fun _ => False)).
  { apply (after_take c [m] q s s2 I Q). fold s1. eapply good_weaken; [exact G|]. intros id. simpl. intuition congruence. }
  destruct go; [|exact G2]. apply (good_seq _ _ _ _ G2), IH, (g_inv _ _ _ _ G2).
Qed.
Lemma for_codes_good f c s : (forall c s, inv cf s -> good cf s (f c s) (fun _ => False)) -> inv cf s ->
  good cf s (for_codes f c s) (fun _ => False).
Proof.
  intros F I. unfold for_codes. destruct c as [c|]; [apply F, I|].
  generalize (codes s). intros l. revert s I. induction l as [|c l IH]; intros s I; simpl; [apply good_refl, I|].
  destruct (is_running s) eqn:R; [|apply good_refl, I].
  pose proof (F c s I) as G. apply (good_seq _ _ _ _ G), IH, (g_inv _ _ _ _ G).
Qed.
Lemma do_act_good n a s : inv cf s -> good cf s (do_act cf proc n a s) (fun _ => False).
Proof.
  intros I. unfold do_act. destruct (is_running s) eqn:R; [|apply good_refl, I]. destruct a as [h key|c|c].
  - set (m := Msg (next s) h key). set (s1 := State (queues s) (S (next s)) (script s) (st s) (log s ++ [LOffer m])).
    assert (I1 : inv cf s1).
    { refine (good_entry cf s s1 (LOffer m) I eq_refl eq_refl _ _ _ _); simpl; [lia| | |lia].
      - intros c. rewrite expected_snoc. apply (i_queue cf s I).
      - apply (i_fresh cf s I). lia. }
    assert (P1 : forall id, place_of (log s1) id = if (next s =? id)%nat then Some New else place_of (log s) id).
    { intros id. simpl. rewrite place_snoc. reflexivity. }
    assert (G : good cf s1 (fst (proc h m s1)) (fun id => id = m_id m)).
    { apply Hp; [exact I1|exact R| |left]; simpl; [apply in_or_app; right; left; reflexivity|].
      split; [|reflexivity]. rewrite place_snoc. simpl. rewrite Nat.eqb_refl. reflexivity. }
    destruct G as [A (seg & B) C D E]. constructor; auto.
    + exists (LOffer m :: seg). rewrite B. simpl. rewrite <- app_assoc. reflexivity.
    + intros id X _. assert (Ne : next s <> id).
      { intros <-. unfold flight in X. rewrite (i_fresh cf s I) in X by lia. exact X. }
      assert (P2 : place_of (log s1) id = place_of (log s) id) by (rewrite P1; destruct (Nat.eqb_spec (next s) id); congruence).
      rewrite <- P2. apply D; [unfold flight; rewrite P2; exact X|simpl; congruence].
    + intros R' id X. destruct (E R' id X) as (F1 & F2). split; [|auto]. simpl in F2. unfold flight in F1 |- *. rewrite P1 in F1.
      destruct (Nat.eqb_spec (next s) id); [congruence|exact F1].
  - apply for_codes_good; [apply all_code_good|exact I].
  - apply for_codes_good; [apply until_code_good|exact I].
Qed.
Lemma do_acts_good n l : forall s, inv cf s -> good cf s (do_acts cf proc n l s) (fun _ => False).
Proof.
  induction l as [|a l IH]; intros s I; [apply good_refl, I|].
  pose proof (do_act_good n a s I) as G. apply (good_seq _ _ _ _ G), IH, (g_inv _ _ _ _ G).
Qed.
End P.

Lemma process_ok cf fuel : proc_ok cf (process cf fuel).
Proof.
  induction fuel as [|fuel IH]; intros h m s I R O P.
  { simpl. apply (good_weaken cf _ _ (fun id => id = m_id m)); [|tauto].
    destruct (good_halt cf s (script s) I) as [A B C D E]. constructor; auto; discriminate. }
  cbn [process]. destruct (script s) as [|(acts, v) sc] eqn:Sc; simpl.
  { destruct (good_halt cf s [] I) as [A B C D E]. constructor; auto; discriminate. }
  set (s1 := State (queues s) (next s) sc (st s) (log s ++ [LCall m h])).
  pose proof (offered_old cf s m I O) as Om.
  assert (I1 : inv cf s1).
  { refine (good_entry cf s s1 (LCall m h) I eq_refl eq_refl _ _ _ _); simpl; [lia| |auto|exact Om].
    intros c. rewrite expected_snoc. apply (i_queue cf s I). }
  assert (P1 : forall id, place_of (log s1) id = if (m_id m =? id)%nat then Some Calling else place_of (log s) id).
  { intros id. simpl. rewrite place_snoc. reflexivity. }
  assert (Pm : place_of (log s1) (m_id m) = Some Calling) by (rewrite P1, Nat.eqb_refl; reflexivity).
  pose proof (do_acts_good cf (process cf fuel) IH (S fuel) acts s1 I1) as G.
  set (s2 := do_acts cf (process cf fuel) (S fuel) acts s1) in *. clearbody s2.
  (* from the call on *)
  assert (Z : forall s', good cf s2 s' (fun id => id = m_id m) -> good cf s s' (fun id => id = m_id m)).
  { intros s' G'. pose proof (good_trans cf s1 s2 s' _ _ G G') as H. destruct H as [A (seg & B) C D E]. constructor; auto.
    - exists (LCall m h :: seg). rewrite B. simpl. rewrite <- app_assoc. reflexivity.
    - intros id X N. assert (P2 : place_of (log s1) id = place_of (log s) id) by (rewrite P1; destruct (Nat.eqb_spec (m_id m) id); congruence).
      rewrite <- P2. apply D; [unfold flight; rewrite P2; exact X|tauto].
    - intros R' id X. destruct (E R' id X) as (F1 & F2). split; [|tauto]. unfold flight in F1 |- *. rewrite P1 in F1.
      destruct (Nat.eqb_spec (m_id m) id) as [<-|]; [|exact F1]. destruct F2. auto. }
  assert (O2 : In (LOffer m) (log s2)).
  { destruct (g_log _ _ _ _ G) as (seg & ->). apply in_or_app. left. simpl. apply in_or_app. left. exact O. }
  assert (P2 : place_of (log s2) (m_id m) = Some Calling).
  { rewrite (g_keep _ _ _ _ G (m_id m)); [exact Pm| |auto]. unfold flight. rewrite Pm. exact Logic.I. }
  pose proof (g_inv _ _ _ _ G) as I2. pose proof (offered_old cf s2 m I2 O2) as Om2.
  destruct (is_running s2) eqn:R2.
  2:{ simpl. destruct G as [A (seg & B) C D E]. constructor; auto; [exists (LCall m h :: seg); rewrite B; simpl; rewrite <- app_assoc; reflexivity| |congruence].
      intros id X N. assert (P3 : place_of (log s1) id = place_of (log s) id) by (rewrite P1; destruct (Nat.eqb_spec (m_id m) id); congruence).
      rewrite <- P3. apply D; [unfold flight; rewrite P3; exact X|auto]. }
  assert (En : forall x s', log s' = log s2 ++ [x] -> queues s' = queues s2 -> next s' = next s2 -> fst (about x) = m ->
     (match x with LDone _ | LDiscard _ | LRaise _ => True | _ => False end) ->
     (st s' = st s2 \/ (st s' = Raised /\ x = LRaise m)) -> good cf s2 s' (fun id => id = m_id m)).
  { intros x s' L Q N F T Rr. rewrite <- F. apply good_end; auto.
    2:{ destruct Rr as [Rr|(Rr & _)]; unfold is_running; rewrite Rr; auto. }
    - constructor; rewrite ?L, ?Q, ?N.
      + intros c. rewrite expected_snoc. destruct x; try contradiction; apply (i_queue cf s2 I2).
      + intros id X. rewrite place_snoc, F. destruct (Nat.eqb_spec (m_id m) id); [lia|]. apply (i_fresh cf s2 I2), X.
      + apply log_ok_snoc; [apply (i_log cf s2 I2)|]. destruct x; try contradiction; simpl in F |- *; subst; auto.
      + intros R'. destruct Rr as [Rr|(_ & ->)]; [|exists m; apply in_or_app; right; left; reflexivity].
        rewrite R' in Rr. destruct (i_raised cf s2 I2 (eq_sym Rr)) as (y & Y). exists y. apply in_or_app. left. exact Y.
    - destruct x; try contradiction; exact Logic.I. }
  assert (Rf : forall (b : bool) (s' : state), fst (s', b) = s') by reflexivity.
  destruct v as [[c|]|].
  - destruct (c =? 0); [|destruct (c =? -1)]; rewrite Rf; apply Z.
    + apply (En (LDone m)); auto.
    + apply (En (LDiscard m)); auto.
    + apply stash_good; assumption.
  - rewrite Rf. apply Z, (En (LDone m)); auto.
  - rewrite Rf. apply Z, (En (LRaise m)); auto.
Qed.
