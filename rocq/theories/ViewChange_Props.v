(** The view change protocol of the master instance: C27, C43, C46, C47, C48, C49. *)
From Coq Require Import List Arith Bool Lia Permutation.
From Verif Require Import Quorum_Model NewView_Model Dict ViewChange_Model.
Import ListNotations.

(** ** Specification, over the history alone *)
Section Spec.
Variables (me : nat) (dg : view_change_msg -> nat) (nvdg : new_view_msg -> nat) (log_size : nat).
Variables (v0 n0 p0 : nat). (* first view, pool size and primary *)

(** the view the node is in, the primary it expects, the size of the pool, whether it waits for a NewView *)
Definition view_at (l : list entry) : nat :=
  fold_left (fun w x => match x with LStart v _ | LCatchup v _ => v | _ => w end) l v0.
Definition primary_at (l : list entry) : nat :=
  fold_left (fun w x => match x with
    | LStart _ p | LCatchup _ p => p
    | LAccept nv => match nw_primary nv with Some p => p | None => w end
    | _ => w end) l p0.
Definition pool_at (l : list entry) : nat := fold_left (fun n x => match x with LPool m => m | _ => n end) l n0.
Definition waiting_at (l : list entry) : bool :=
  fold_left (fun w x => match x with LStart _ _ => true | LAccept _ | LError => false | _ => w end) l false.
(** what happened since the present view change began *)
Definition recent (l : list entry) : list entry :=
  fold_left (fun r x => match x with LStart _ _ => [] | _ => r ++ [x] end) l [].
(** the first ViewChange of node [x] since then *)
Definition hear (x : nat) (r : option view_change_msg) (e : entry) : option view_change_msg :=
  match e with
  | LStart _ _ => None
  | LVC m y => match r with Some _ => r | None => if y =? x then Some m else None end
  | LSentVC m _ => match r with Some _ => r | None => if me =? x then Some m else None end
  | _ => r
  end.
Definition vc_of (l : list entry) (x : nat) : option view_change_msg := fold_left (hear x) l None.
(** [y] acknowledged [x]'s ViewChange with digest [d]; this node acknowledges whatever it processes *)
Definition acked (l : list entry) (x d y : nat) : Prop :=
  In (LAck x d y) (recent l) \/ y = me /\ exists m, dg m = d /\ In (LVC m x) (recent l).
(** at least [n-f-1] nodes did *)
Definition confirmed (l : list entry) (x d : nat) : Prop :=
  (exists m, vc_of l x = Some m /\ dg m = d) /\
  exists ys, NoDup ys /\ pool_at l - getMaxFailures (pool_at l) - 1 <= length ys /\ forall y, In y ys -> acked l x d y.
(** [y] sent the NewView *)
Definition sent_nv (l : list entry) (nv : new_view_msg) (y : nat) : Prop :=
  In (LNV nv y) (recent l) \/ y = me /\ In (LSentNV nv) (recent l).
(** a NewView which only the primary sent, without the mark of a reply *)
Definition direct (l : list entry) (nv : new_view_msg) : Prop :=
  sent_nv l nv (primary_at l) /\ nw_primary nv = None /\
  forall nv' y, nvdg nv' = nvdg nv -> sent_nv l nv' y -> y = primary_at l.
(** [n-f] nodes sent a NewView with the same digest since the view change began *)
Definition quorumed (l : list entry) (nv : new_view_msg) : Prop :=
  exists l1 l2 ys, l = l1 ++ l2 /\ (forall v p, ~ In (LStart v p) l2) /\
    NoDup ys /\ pool_at l1 - getMaxFailures (pool_at l1) <= length ys /\ (exists y, sent_nv l1 nv y) /\
    forall y, In y ys -> exists nv', nvdg nv' = nvdg nv /\ sent_nv l1 nv' y.
(** the messages [ms] are those which [nv] lists, and give its checkpoint and its batches *)
Definition listed (l : list entry) (vcs : list (nat * nat)) (ms : list view_change_msg) : Prop :=
  Forall2 (fun xd m => vc_of l (fst xd) = Some m /\ dg m = snd xd) vcs ms.
Definition checked (l : list entry) (nv : new_view_msg) : Prop :=
  exists ms, listed l (nw_vcs nv) ms /\
    calc_checkpoint (Quorums (pool_at l)) ms = Some (nw_cp nv) /\
    calc_batches (Quorums (pool_at l)) log_size (nw_cp nv) ms = Some (nw_batches nv).
Definition stash_count (v : nat) (l : list entry) : nat :=
  length (filter (fun e => match e with LStashed w _ => w =? v | _ => false end) (recent l)).

(** what a ViewChange message says of the batches *)
Definition reports (l : list entry) (m : view_change_msg) (d : shared) : Prop :=
  (* what is prepared now, *)
  (forall b, In b (prepared d) -> exists b', In b' (vc_prepared m) /\ pp_seq_no b' = pp_seq_no b /\ In b' (prepared d)) /\
  (* what was reported before and is not below a stable checkpoint nor replaced, *)
  (forall l1 m0 d0 l2 b, l = l1 ++ LSentVC m0 d0 :: l2 -> In b (vc_prepared m0) ->
    (forall m' d', In (LSentVC m' d') (l2 ++ [LSentVC m d]) -> vc_stable m' < pp_seq_no b) ->
    exists b', In b' (vc_prepared m) /\ pp_seq_no b' = pp_seq_no b /\
      (b' = b \/ exists m' d', In (LSentVC m' d') (l2 ++ [LSentVC m d]) /\ In b' (prepared d'))) /\
  (* nothing else, and one batch for a number *)
  (forall b, In b (vc_prepared m) -> exists m' d', In (LSentVC m' d') (l ++ [LSentVC m d]) /\ In b (prepared d')) /\
  NoDup (map pp_seq_no (vc_prepared m)) /\
  (* the same for pre-prepared batches, per number and digest *)
  (forall b, In b (preprepared d) -> exists b', In b' (vc_preprepared m) /\
    pp_seq_no b' = pp_seq_no b /\ pp_digest b' = pp_digest b /\ In b' (preprepared d)) /\
  (forall l1 m0 d0 l2 b, l = l1 ++ LSentVC m0 d0 :: l2 -> In b (vc_preprepared m0) ->
    (forall m' d', In (LSentVC m' d') (l2 ++ [LSentVC m d]) -> vc_stable m' < pp_seq_no b) ->
    exists b', In b' (vc_preprepared m) /\ pp_seq_no b' = pp_seq_no b /\ pp_digest b' = pp_digest b /\
      (b' = b \/ exists m' d', In (LSentVC m' d') (l2 ++ [LSentVC m d]) /\ In b' (preprepared d'))) /\
  (forall b, In b (vc_preprepared m) -> exists m' d', In (LSentVC m' d') (l ++ [LSentVC m d]) /\ In b (preprepared d')) /\
  NoDup (map (fun b => (pp_seq_no b, pp_digest b)) (vc_preprepared m)).

Definition entry_ok (l : list entry) (x : entry) : Prop :=
  match x with
  | LSentVC m d =>
      vc_view m = view_at l /\ vc_stable m = stable d /\ vc_checkpoints m = cps d /\ reports l m d
  | LVC m _ => vc_view m = view_at l /\ waiting_at l = true
  | LSentAck x d => primary_at l <> me /\ exists m, dg m = d /\ In (LVC m x) (recent l)
  | LAck _ _ _ => primary_at l = me /\ waiting_at l = true
  | LNV nv _ => nw_view nv = view_at l /\ waiting_at l = true
  | LSentNV nv =>
      primary_at l = me /\ waiting_at l = true /\ nw_view nv = view_at l /\ nw_primary nv = None /\
      NoDup (map fst (nw_vcs nv)) /\
      pool_at l - getMaxFailures (pool_at l) <= length (nw_vcs nv) /\
      (forall x d, In (x, d) (nw_vcs nv) <-> confirmed l x d) /\
      exists order ms, Permutation order (nw_vcs nv) /\ listed l order ms /\
        calc_checkpoint (Quorums (pool_at l)) ms = Some (nw_cp nv) /\
        calc_batches (Quorums (pool_at l)) log_size (nw_cp nv) ms = Some (nw_batches nv)
  | LAccept nv =>
      waiting_at l = true /\ (direct l nv \/ quorumed l nv) /\
      (checked l nv \/ exists own l0, l = l0 ++ [LSentNV own])
  | LError => exists own l0, l = l0 ++ [LSentNV own]
  | LAsk v => view_at l < v /\ waiting_at l = false /\ pool_at l - getMaxFailures (pool_at l) <= stash_count v l
  | LStashed v _ => view_at l < v
  | LReqVC x d => exists nv, (direct l nv \/ quorumed l nv) /\ In (x, d) (nw_vcs nv) /\
      forall m, vc_of l x = Some m -> dg m <> d
  | LRepVC x d _ => In (LReqVC x d) (recent l)
  | _ => True
  end.
Definition log_ok (l : list entry) : Prop := forall l1 x l2, l = l1 ++ x :: l2 -> entry_ok l1 x.
End Spec.

(** ** Lemmas *)
Section Proofs.
Variables (me : nat) (dg : view_change_msg -> nat) (nvdg : new_view_msg -> nat) (log_size : nat).
Variables (v0 n0 p0 : nat).
Notation view_at := (view_at v0). Notation pool_at := (pool_at n0). Notation primary_at := (primary_at p0).
Notation vc_of := (vc_of me). Notation acked := (acked me dg). Notation sent_nv := (sent_nv me).
Notation confirmed := (confirmed me dg n0). Notation direct := (direct me nvdg p0). Notation quorumed := (quorumed me nvdg n0).
Notation listed := (listed me dg). Notation checked := (checked me dg log_size n0).
Notation entry_ok := (entry_ok me dg nvdg log_size v0 n0 p0). Notation log_ok := (log_ok me dg nvdg log_size v0 n0 p0).

Lemma view_snoc l x : view_at (l ++ [x]) = match x with LStart v _ | LCatchup v _ => v | _ => view_at l end.
Proof. unfold ViewChange_Props.view_at. rewrite fold_left_app. reflexivity. Qed.
Lemma primary_snoc l x : primary_at (l ++ [x]) = match x with
    | LStart _ p | LCatchup _ p => p
    | LAccept nv => match nw_primary nv with Some p => p | None => primary_at l end
    | _ => primary_at l end.
Proof. unfold ViewChange_Props.primary_at. rewrite fold_left_app. reflexivity. Qed.
Lemma pool_snoc l x : pool_at (l ++ [x]) = match x with LPool m => m | _ => pool_at l end.
Proof. unfold ViewChange_Props.pool_at. rewrite fold_left_app. reflexivity. Qed.
Lemma waiting_snoc l x : waiting_at (l ++ [x]) = match x with LStart _ _ => true | LAccept _ | LError => false | _ => waiting_at l end.
Proof. unfold waiting_at. rewrite fold_left_app. reflexivity. Qed.
Lemma recent_snoc l x : recent (l ++ [x]) = match x with LStart _ _ => [] | _ => recent l ++ [x] end.
Proof. unfold recent. rewrite fold_left_app. reflexivity. Qed.
Lemma vc_of_snoc l x e : vc_of (l ++ [e]) x = hear me x (vc_of l x) e.
Proof. unfold ViewChange_Props.vc_of. rewrite fold_left_app. reflexivity. Qed.
Lemma log_ok_snoc l x : log_ok l -> entry_ok l x -> log_ok (l ++ [x]).
Proof.
  intros A B l1 y l2 E. destruct l2 as [|z l2] using rev_ind.
  - apply app_inj_tail in E as (-> & ->). exact B.
  - clear IHl2. change (l1 ++ y :: l2 ++ [z]) with (l1 ++ (y :: l2) ++ [z]) in E. rewrite app_assoc in E. apply app_inj_tail in E as (E & _). exact (A l1 y l2 E).
Qed.
Definition is_start (x : entry) : bool := match x with LStart _ _ => true | _ => false end.
Lemma recent_in l x y : is_start x = false -> (In y (recent (l ++ [x])) <-> In y (recent l) \/ y = x).
Proof. intros E. rewrite recent_snoc. destruct x; try discriminate; rewrite in_app_iff; simpl; (split; [intros [H|[H|[]]]; [left; exact H|right; symmetry; exact H]|intros [H|H]; [left; exact H|right; left; symmetry; exact H]]). Qed.

(** *** votes *)
Definition votes_ok (l : list entry) (vs : dict node_vote) : Prop :=
  NoDup (map fst vs) /\ forall x, vote_msg (vote_of x vs) = vc_of l x /\
    forall d, NoDup (acks_for d (vote_of x vs)) /\ forall y, In y (acks_for d (vote_of x vs)) <-> acked l x d y.
Definition vote_entry (x : entry) : bool := match x with LStart _ _ | LSentVC _ _ | LVC _ _ | LAck _ _ _ => true | _ => false end.
Lemma votes_ok_note l vs x : vote_entry x = false -> votes_ok l vs -> votes_ok (l ++ [x]) vs.
Proof.
  intros E (A & B). split; [exact A|]. intros y. destruct (B y) as (C & D). split.
  - rewrite vc_of_snoc, C. destruct x; try discriminate; reflexivity.
  - intros d. destruct (D d) as (F & G). split; [exact F|]. intros z. rewrite G. unfold ViewChange_Props.acked.
    assert (S0 : is_start x = false) by (destruct x; try discriminate; reflexivity). split.
    + intros [H|(H & m & H1 & H2)]; [left|right; split; [exact H|exists m; split; [exact H1|]]]; apply recent_in; auto.
    + intros [H|(H & m & H1 & H2)]; apply recent_in in H || apply recent_in in H2; try exact S0.
      * destruct H as [H|<-]; [left; exact H|discriminate].
      * destruct H2 as [H2|<-]; [right; split; [exact H|exists m; auto]|discriminate].
Qed.
Lemma votes_ok_start l v p : votes_ok (l ++ [LStart v p]) [].
Proof.
  split; [apply NoDup_nil|]. intros x. rewrite vc_of_snoc. split; [reflexivity|]. intros d. split; [apply NoDup_nil|].
  intros y. unfold ViewChange_Props.acked. rewrite recent_snoc. simpl. intuition. destruct H1 as (? & ? & []).
Qed.
Lemma vote_of_set x v vs y : vote_of y (set x v vs) = if y =? x then v else vote_of y vs.
Proof. unfold vote_of, get_or. rewrite get_set. destruct (y =? x); reflexivity. Qed.
Lemma votes_ok_touch l vs x : votes_ok l vs -> votes_ok l (touch x vs).
Proof.
  intros (A & B). unfold touch. split; [apply nodup_set, A|]. intros y. rewrite vote_of_set. destruct (Nat.eqb_spec y x) as [->|N]; apply B.
Qed.
Lemma acks_add d y (a : node_vote) m d' : acks_for d' (NodeVote m (set d (add y (acks_for d a)) (acks a))) = if d' =? d then add y (acks_for d a) else acks_for d' a.
Proof. unfold acks_for, get_or. simpl. rewrite get_set. destruct (d' =? d); reflexivity. Qed.
Lemma add_view_change_msg m x vs y : vote_msg (vote_of y (add_view_change m x vs)) = if y =? x then match vote_msg (vote_of x vs) with None => Some m | r => r end else vote_msg (vote_of y vs).
Proof. unfold add_view_change. rewrite vote_of_set. destruct (y =? x); [|reflexivity]. destruct (vote_msg (vote_of x vs)) eqn:E; simpl; rewrite ?E; reflexivity. Qed.
Lemma add_view_change_acks m x vs y : acks (vote_of y (add_view_change m x vs)) = acks (vote_of y vs).
Proof. unfold add_view_change. rewrite vote_of_set. destruct (Nat.eqb_spec y x) as [->|N]; [|reflexivity]. destruct (vote_msg (vote_of x vs)) eqn:E; reflexivity. Qed.
Lemma votes_ok_own l vs m d : votes_ok l vs -> votes_ok (l ++ [LSentVC m d]) (add_view_change m me vs).
Proof.
  intros (A & B). split; [apply nodup_set, A|]. intros x. destruct (B x) as (C & D). split.
  - rewrite add_view_change_msg, vc_of_snoc. simpl. destruct (Nat.eqb_spec x me) as [->|N].
    + rewrite <- C, Nat.eqb_refl. destruct (vote_msg (vote_of me vs)); reflexivity.
    + rewrite C. destruct (Nat.eqb_spec me x) as [->|N']; [congruence|]. destruct (vc_of l x); reflexivity.
  - intros d'. unfold acks_for. rewrite add_view_change_acks. destruct (D d') as (F & G). split; [exact F|]. intros y. rewrite G.
    unfold ViewChange_Props.acked. rewrite !recent_in by reflexivity. split.
    + intros [H|(H & m' & H1 & H2)]; [left; auto|right; split; [exact H|exists m'; split; [exact H1|apply recent_in; [reflexivity|auto]]]].
    + intros [[H|H]|(H & m' & H1 & H2)]; [left; auto|discriminate|]. apply recent_in in H2; [|reflexivity]. destruct H2 as [H2|H2]; [|discriminate]. right. split; [exact H|exists m'; auto].
Qed.
Lemma votes_ok_vc l vs m x : votes_ok l vs -> votes_ok (l ++ [LVC m x]) (add_ack x (dg m) me (add_view_change m x vs)).
Proof.
  intros (A & B). unfold add_ack. split; [apply nodup_set, nodup_set, A|]. intros y. rewrite vote_of_set. destruct (B y) as (C & D). split.
  - rewrite vc_of_snoc. simpl. destruct (Nat.eqb_spec y x) as [->|N]; simpl; rewrite add_view_change_msg, <- C.
    + rewrite Nat.eqb_refl. destruct (vote_msg (vote_of x vs)); reflexivity.
    + destruct (Nat.eqb_spec y x) as [->|_]; [congruence|]. destruct (Nat.eqb_spec x y) as [->|_]; [congruence|]. destruct (vote_msg (vote_of y vs)); reflexivity.
  - intros d. destruct (D d) as (F & G).
    assert (K : forall z, acked (l ++ [LVC m x]) y d z <-> acked l y d z \/ z = me /\ y = x /\ d = dg m).
    { intros z. unfold ViewChange_Props.acked. rewrite !recent_in by reflexivity. split.
      - intros [[H|H]|(H & m' & H1 & H2)]; [auto|discriminate|]. apply recent_in in H2; [|reflexivity]. destruct H2 as [H2|H2].
        + left. right. split; [exact H|exists m'; auto].
        + injection H2 as -> ->. auto.
      - intros [[H|(H & m' & H1 & H2)]|(-> & -> & ->)]; [auto| |].
        + right. split; [exact H|exists m'; split; [exact H1|apply recent_in; [reflexivity|auto]]].
        + right. split; [reflexivity|exists m; split; [reflexivity|apply recent_in; [reflexivity|auto]]]. }
    destruct (Nat.eqb_spec y x) as [->|N].
    + rewrite acks_add. unfold acks_for. rewrite add_view_change_acks. destruct (Nat.eqb_spec d (dg m)) as [->|Nd].
      * split; [apply add_nodup, F|]. intros z. rewrite add_in, K, <- G. unfold acks_for. intuition.
      * split; [exact F|]. intros z. rewrite K, <- G. unfold acks_for. intuition.
    + unfold acks_for. rewrite add_view_change_acks. split; [exact F|]. intros z. rewrite K, <- G. unfold acks_for. intuition.
Qed.
Lemma votes_ok_ack l vs x d y : votes_ok l vs -> votes_ok (l ++ [LAck x d y]) (add_ack x d y vs).
Proof.
  intros (A & B). unfold add_ack. split; [apply nodup_set, A|]. intros z. rewrite vote_of_set. destruct (B z) as (C & D). split.
  - rewrite vc_of_snoc. simpl. destruct (Nat.eqb_spec z x) as [->|N]; exact C.
  - intros d'. destruct (D d') as (F & G).
    assert (K : forall w, acked (l ++ [LAck x d y]) z d' w <-> acked l z d' w \/ w = y /\ z = x /\ d' = d).
    { intros w. unfold ViewChange_Props.acked. rewrite !recent_in by reflexivity. split.
      - intros [[H|H]|(H & m' & H1 & H2)]; [auto|injection H as -> -> ->; auto|]. apply recent_in in H2; [|reflexivity]. destruct H2 as [H2|H2]; [|discriminate].
        left. right. split; [exact H|exists m'; auto].
      - intros [[H|(H & m' & H1 & H2)]|(-> & -> & ->)]; [auto| |auto].
        right. split; [exact H|exists m'; split; [exact H1|apply recent_in; [reflexivity|auto]]]. }
    destruct (Nat.eqb_spec z x) as [->|N].
    + rewrite acks_add. destruct (Nat.eqb_spec d' d) as [->|Nd].
      * split; [apply add_nodup, F|]. intros w. rewrite add_in, K, <- G. intuition.
      * split; [exact F|]. intros w. rewrite K, <- G. intuition.
    + split; [exact F|]. intros w. rewrite K, <- G. intuition.
Qed.

(** *** NewView messages *)
Definition nv_ok (l : list entry) (st : nv_store) : Prop :=
  NoDup (map fst (nv_votes st)) /\
  (forall k m xs, get k (nv_votes st) = Some (m, xs) -> nvdg m = k /\ NoDup xs /\
     (exists y xs', xs = y :: xs' /\ sent_nv l m y) /\
     forall y, In y xs <-> exists nv', nvdg nv' = k /\ sent_nv l nv' y) /\
  (forall nv y, sent_nv l nv y -> get (nvdg nv) (nv_votes st) <> None) /\
  (forall nv, nv_quorumed st = Some nv -> quorumed l nv).
Lemma sent_nv_snoc l x nv y : is_start x = false ->
  (sent_nv (l ++ [x]) nv y <-> sent_nv l nv y \/ x = LNV nv y \/ y = me /\ x = LSentNV nv).
Proof. intros E. unfold ViewChange_Props.sent_nv. rewrite !recent_in by exact E. intuition. Qed.
Lemma quorumed_snoc l x nv : is_start x = false -> quorumed l nv -> quorumed (l ++ [x]) nv.
Proof.
  intros E (l1 & l2 & ys & A & B & C). exists l1, (l2 ++ [x]), ys. split; [rewrite A, app_assoc; reflexivity|]. split; [|exact C].
  intros v p I. apply in_app_iff in I as [I|[->|[]]]; [exact (B v p I)|discriminate].
Qed.
Definition nv_entry (x : entry) : bool := match x with LStart _ _ | LNV _ _ | LSentNV _ => true | _ => false end.
Lemma nv_ok_note l st x : nv_entry x = false -> nv_ok l st -> nv_ok (l ++ [x]) st.
Proof.
  intros E (A & B & C & D). assert (S0 : is_start x = false) by (destruct x; try discriminate; reflexivity).
  assert (K : forall nv y, sent_nv (l ++ [x]) nv y <-> sent_nv l nv y).
  { intros nv y. rewrite sent_nv_snoc by exact S0. intuition; subst; discriminate. }
  split; [exact A|]. split; [|split].
  - intros k m xs G. destruct (B k m xs G) as (H1 & H2 & (y & xs' & H3 & H4) & H5). split; [exact H1|]. split; [exact H2|]. split.
    + exists y, xs'. split; [exact H3|apply K, H4].
    + intros z. rewrite H5. split; intros (nv' & J1 & J2); exists nv'; (split; [exact J1|apply K, J2]).
  - intros nv y I. apply K in I. exact (C nv y I).
  - intros nv H. apply quorumed_snoc; [exact S0|exact (D nv H)].
Qed.
Lemma nv_ok_start l v p : nv_ok (l ++ [LStart v p]) (NvStore [] None).
Proof.
  split; [apply NoDup_nil|]. split; [intros; discriminate|]. split; [|intros; discriminate].
  intros nv y. unfold ViewChange_Props.sent_nv. rewrite recent_snoc. simpl. intuition.
Qed.
Lemma nv_ok_add l st nv y x : x = LNV nv y \/ y = me /\ x = LSentNV nv -> nv_ok l st ->
  nv_ok (l ++ [x]) (add_new_view nvdg (Quorums (pool_at l)) nv y st).
Proof.
  intros Hx (A & B & C & D). assert (S0 : is_start x = false) by (destruct Hx as [->|(_ & ->)]; reflexivity).
  assert (K : forall nv' z, sent_nv (l ++ [x]) nv' z <-> sent_nv l nv' z \/ nv' = nv /\ z = y).
  { intros nv' z. rewrite sent_nv_snoc by exact S0. split.
    - intros [H|[H|(H1 & H2)]]; [auto| |]; right; destruct Hx as [Hx|(Hy & Hx)]; rewrite Hx in *; try discriminate.
      + injection H as -> ->. auto.
      + injection H2 as ->. subst. auto.
    - intros [H|(-> & ->)]; [auto|]. right. exact Hx. }
  unfold add_new_view. destruct (get_or (nvdg nv) (nv, []) (nv_votes st)) as (m, xs) eqn:G.
  assert (X : nvdg m = nvdg nv /\ NoDup xs /\ (forall z, In z xs <-> exists nv', nvdg nv' = nvdg nv /\ sent_nv l nv' z) /\
    (exists z zs, add y xs = z :: zs /\ sent_nv (l ++ [x]) m z)).
  { unfold get_or in G. destruct (get (nvdg nv) (nv_votes st)) as [(m', xs')|] eqn:G'.
    - injection G as -> ->. destruct (B _ _ _ G') as (H1 & H2 & (z & zs & -> & H4) & H5). split; [exact H1|]. split; [exact H2|]. split; [exact H5|].
      exists z. unfold add. destruct (existsb (Nat.eqb y) (z :: zs)); simpl; [exists zs|exists (zs ++ [y])]; (split; [reflexivity|apply K; auto]).
    - injection G as <- <-. split; [reflexivity|]. split; [apply NoDup_nil|]. split.
      + intros z. split; [intros []|]. intros (nv' & J1 & J2). exfalso. apply (C nv' z J2). rewrite J1. exact G'.
      + exists y, []. split; [reflexivity|apply K; auto]. }
  destruct X as (X1 & X2 & X3 & X4). split; [apply nodup_set, A|]. split; [|split].
  - intros k m' xs' G'. cbn [nv_votes] in G'. rewrite get_set in G'. destruct (Nat.eqb_spec k (nvdg nv)) as [->|N].
    + injection G' as <- <-. split; [exact X1|]. split; [apply add_nodup, X2|]. split; [exact X4|].
      intros z. rewrite add_in, X3. split.
      * intros [->|(nv' & J1 & J2)]; [exists nv; split; [reflexivity|apply K; auto]|exists nv'; split; [exact J1|apply K; auto]].
      * intros (nv' & J1 & J2). apply K in J2 as [J2|(-> & ->)]; [right; exists nv'; auto|auto].
    + destruct (B k m' xs' G') as (H1 & H2 & (z & zs & H3 & H4) & H5). split; [exact H1|]. split; [exact H2|]. split.
      * exists z, zs. split; [exact H3|apply K; auto].
      * intros w. rewrite H5. split; intros (nv' & J1 & J2); exists nv'; (split; [exact J1|]); apply K in J2 || apply K; [auto|]. destruct J2 as [J2|(-> & ->)]; [exact J2|congruence].
  - intros nv' z I. cbn [nv_votes]. rewrite get_set. apply K in I as [I|(-> & ->)].
    + destruct (nvdg nv' =? nvdg nv); [discriminate|exact (C nv' z I)].
    + rewrite Nat.eqb_refl. discriminate.
  - intros nv'. cbn [nv_quorumed]. destruct (is_reached _ _) eqn:R; intros H; [|apply quorumed_snoc; [exact S0|exact (D nv' H)]].
    injection H as <-. exists (l ++ [x]), [], (add y xs). split; [rewrite app_nil_r; reflexivity|]. split; [intros v p []|]. split; [apply add_nodup, X2|]. split.
    + rewrite pool_snoc. unfold is_reached in R. apply Nat.leb_le in R. simpl in R. destruct Hx as [->|(_ & ->)]; exact R.
    + split; [exists y; apply K; auto|]. intros z. rewrite add_in, X3. intros [->|(nv' & J1 & J2)]; [exists nv; split; [reflexivity|apply K; auto]|exists nv'; split; [exact J1|apply K; auto]].
Qed.
Lemma new_view_source l st p nv : nv_ok l st -> p = primary_at l -> get_new_view (Some p) st = Some nv -> direct l nv \/ quorumed l nv.
Proof.
  intros (A & B & C & D) -> G. unfold get_new_view in G. destruct (nv_quorumed st) as [nv'|] eqn:Q; [injection G as ->; right; exact (D nv eq_refl)|].
  destruct (find _ (nv_votes st)) as [(k, (m, xs))|] eqn:F; [|discriminate]. injection G as ->. apply find_some in F as (F1 & F2).
  apply (in_get k (nv_votes st) (nv, xs) A) in F1. destruct (B k nv xs F1) as (H1 & H2 & (y & zs & -> & H4) & H5).
  cbn in F2. destruct zs; [|discriminate]. destruct (nw_primary nv) eqn:P; [discriminate|]. apply Nat.eqb_eq in F2 as ->. left.
  split; [exact H4|]. split; [exact P|]. intros nv' z E Z. assert (I : In z [primary_at l]) by (apply H5; exists nv'; split; [congruence|exact Z]).
  destruct I as [I|[]]; auto.
Qed.

(** *** confirmed votes *)
Lemma in_confirmed_votes q vs x d : NoDup (map fst vs) ->
  (In (x, d) (confirmed_votes dg q vs) <-> exists m, vote_msg (vote_of x vs) = Some m /\ dg m = d /\ view_change_ack q <= length (acks_for d (vote_of x vs))).
Proof.
  intros N. unfold confirmed_votes. rewrite in_flat_map. split.
  - intros ((y, v) & I & J). destruct (vote_msg v) as [m|] eqn:M; [|destruct J]. destruct (is_confirmed dg q v) eqn:E; [|destruct J].
    destruct J as [J|[]]. injection J as -> <-. unfold is_confirmed in E. rewrite M in E. apply Nat.leb_le in E.
    assert (V : vote_of x vs = v) by (unfold vote_of, get_or; rewrite (in_get x vs v N I); reflexivity). rewrite V. exists m. auto.
  - intros (m & M & D & L). unfold vote_of, get_or in *. destruct (get x vs) as [v|] eqn:G; [|discriminate].
    exists (x, v). split; [apply get_in, G|]. rewrite M. unfold is_confirmed. rewrite M. unfold is_reached. rewrite D.
    destruct (Nat.leb_spec (view_change_ack q) (length (acks_for d v))); [left; reflexivity|lia].
Qed.
Lemma confirmed_votes_nodup q vs : NoDup (map fst vs) -> NoDup (map fst (confirmed_votes dg q vs)).
Proof.
  intros N. induction vs as [|(x, v) vs IH]; simpl; [apply NoDup_nil|]. inversion N as [|? ? N1 N2]; subst. specialize (IH N2).
  rewrite map_app. destruct (vote_msg v) as [m|]; simpl; [|exact IH]. destruct (is_confirmed dg q v); simpl; [|exact IH].
  apply NoDup_cons; [|exact IH]. intros I. apply N1. clear -I. apply in_map_iff in I as ((y, d) & <- & I). unfold confirmed_votes in I. apply in_flat_map in I as ((z, w) & I1 & I2).
  destruct (vote_msg w); [|destruct I2]. destruct (is_confirmed dg q w); [|destruct I2]. destruct I2 as [E|[]]. injection E as -> _. apply (in_map fst) in I1. exact I1.
Qed.
Lemma confirmed_iff l vs x d : votes_ok l vs -> (In (x, d) (confirmed_votes dg (Quorums (pool_at l)) vs) <-> confirmed l x d).
Proof.
  intros (A & B). destruct (B x) as (C & D). destruct (D d) as (F & G). rewrite in_confirmed_votes by exact A. unfold ViewChange_Props.confirmed. split.
  - intros (m & H1 & H2 & H3). split; [exists m; split; [congruence|exact H2]|]. exists (acks_for d (vote_of x vs)). split; [exact F|]. split; [exact H3|]. intros y. apply G.
  - intros ((m & H1 & H2) & ys & H3 & H4 & H5). exists m. split; [congruence|]. split; [exact H2|]. eapply Nat.le_trans; [exact H4|]. apply NoDup_incl_length; [exact H3|].
    intros y I. apply G, H5, I.
Qed.
Lemma get_view_change_iff l vs x d m : votes_ok l vs -> (get_view_change dg x d vs = Some m <-> vc_of l x = Some m /\ dg m = d).
Proof.
  intros (A & B). destruct (B x) as (C & _). unfold get_view_change. rewrite C. destruct (vc_of l x) as [m'|].
  - destruct (Nat.eqb_spec (dg m') d) as [E|N]; split; try discriminate; [intros H; injection H as ->; auto|intros (H & _); exact H|intros (H & H2); injection H as ->; congruence].
  - split; [discriminate|intros (H & _); discriminate].
Qed.
Lemma messages_listed l vs cv : votes_ok l vs -> (forall x d, In (x, d) cv -> exists m, vc_of l x = Some m /\ dg m = d) -> listed l cv (messages dg vs cv).
Proof.
  intros V H. induction cv as [|(x, d) cv IH]; [apply Forall2_nil|]. cbn [messages flat_map].
  destruct (H x d (or_introl eq_refl)) as (m & M1 & M2). rewrite (proj2 (get_view_change_iff l vs x d m V) (conj M1 M2)).
  apply Forall2_cons; [simpl; auto|]. apply IH. intros y e I. apply H. right. exact I.
Qed.
Lemma insert_by_perm x l : Permutation (x :: l) (insert_by x l).
Proof. induction l as [|y l IH]; simpl; [apply Permutation_refl|]. destruct (fst x <=? fst y); [apply Permutation_refl|]. eapply perm_trans; [apply perm_swap|]. apply perm_skip, IH. Qed.
Lemma sort_by_perm l : Permutation l (sort_by l).
Proof. induction l as [|x l IH]; simpl; [apply perm_nil|]. eapply perm_trans; [apply perm_skip, IH|apply insert_by_perm]. Qed.
Lemma collect_all l vs vcs ms : votes_ok l vs -> collect dg vs vcs = (ms, None) -> listed l vcs ms.
Proof.
  intros V. revert ms. induction vcs as [|(x, d) vcs IH]; simpl; intros ms E; [injection E as <-; apply Forall2_nil|].
  destruct (get_view_change dg x d vs) as [m|] eqn:G; [|discriminate]. destruct (collect dg vs vcs) as (ms', miss) eqn:K. injection E as <- ->.
  apply Forall2_cons; [apply (get_view_change_iff l vs x d m V), G|apply IH; reflexivity].
Qed.
Lemma collect_missing l vs vcs ms x d : votes_ok l vs -> collect dg vs vcs = (ms, Some (x, d)) -> In (x, d) vcs /\ forall m, vc_of l x = Some m -> dg m <> d.
Proof.
  intros V. revert ms. induction vcs as [|(y, e) vcs IH]; simpl; intros ms E; [discriminate|].
  destruct (get_view_change dg y e vs) as [m|] eqn:G.
  - destruct (collect dg vs vcs) as (ms', miss) eqn:K. injection E as <- ->. destruct (IH ms' eq_refl) as (I1 & I2). auto.
  - injection E as _ -> ->. split; [auto|]. intros m M D. rewrite (proj2 (get_view_change_iff l vs x d m V) (conj M D)) in G. discriminate.
Qed.
Lemma cp_eqb_eq a b : cp_eqb a b = true -> a = b.
Proof.
  unfold cp_eqb. rewrite !andb_true_iff, !Nat.eqb_eq. destruct a, b; simpl. intros ((((-> & ->) & ->) & ->) & ->). reflexivity.
Qed.
Lemma cp_eqb_refl a : cp_eqb a a = true.
Proof. unfold cp_eqb. rewrite !Nat.eqb_refl. reflexivity. Qed.
Lemma bids_eqb_eq a : forall b, bids_eqb a b = true -> a = b.
Proof.
  induction a as [|x a IH]; intros [|y b]; simpl; try discriminate; [reflexivity|]. rewrite andb_true_iff. intros (E & F). rewrite (IH b F).
  unfold bid_eqb in E. rewrite !andb_true_iff, !Nat.eqb_eq in E. destruct x, y; simpl in *. destruct E as (((-> & ->) & ->) & ->). reflexivity.
Qed.
Lemma bids_eqb_refl a : bids_eqb a a = true.
Proof. induction a as [|x a IH]; simpl; [reflexivity|]. rewrite IH. unfold bid_eqb. rewrite !Nat.eqb_refl. reflexivity. Qed.
Lemma new_view_valid_iff q vcs cp bs : new_view_valid q log_size vcs cp bs = true <-> calc_checkpoint q vcs = Some cp /\ calc_batches q log_size cp vcs = Some bs.
Proof.
  unfold new_view_valid. destruct (calc_checkpoint q vcs) as [c|]; [|split; [discriminate|intros (H & _); discriminate]].
  destruct (cp_eqb c cp) eqn:E; simpl.
  - apply cp_eqb_eq in E as ->. destruct (calc_batches q log_size cp vcs) as [b|]; [|split; [discriminate|intros (_ & H); discriminate]].
    split; [intros F; apply bids_eqb_eq in F as ->; auto|intros (_ & F); injection F as ->; apply bids_eqb_refl].
  - split; [discriminate|]. intros (F & _). injection F as ->. rewrite cp_eqb_refl in E. discriminate.
Qed.

(** *** old batches *)
Lemma sorted_perm l : Permutation l (sorted l).
Proof.
  assert (I : forall b l, Permutation (b :: l) (insert b l)).
  { clear. induction l as [|c l IH]; simpl; [apply Permutation_refl|]. destruct (bid_leb b c); [apply Permutation_refl|]. eapply perm_trans; [apply perm_swap|]. apply perm_skip, IH. }
  induction l as [|x l IH]; simpl; [apply perm_nil|]. eapply perm_trans; [apply perm_skip, IH|apply I].
Qed.
Definition keyed (d : dict batch_id) : Prop := NoDup (map fst d) /\ forall k b, get k d = Some b -> pp_seq_no b = k.
Lemma add_prepared_spec bs : forall d, keyed d -> keyed (add_prepared d bs) /\
  (forall b, In b bs -> exists b', get (pp_seq_no b) (add_prepared d bs) = Some b' /\ In b' bs) /\
  (forall k b, get k d = Some b -> exists b', get k (add_prepared d bs) = Some b' /\ (b' = b \/ In b' bs)) /\
  (forall k b, get k (add_prepared d bs) = Some b -> get k d = Some b \/ In b bs).
Proof.
  unfold add_prepared. induction bs as [|a bs IH]; intros d K; simpl.
  - split; [exact K|]. split; [intros b []|]. split; [intros k b G; exists b; auto|auto].
  - destruct (IH (set (pp_seq_no a) a d)) as (A & B & C & D).
    { destruct K as (K1 & K2). split; [apply nodup_set, K1|]. intros k b. rewrite get_set. destruct (Nat.eqb_spec k (pp_seq_no a)) as [->|N]; [intros E; injection E as ->; reflexivity|apply K2]. }
    split; [exact A|]. split; [|split].
    + intros b [<-|I].
      * destruct (C (pp_seq_no a) a) as (b' & E1 & E2); [rewrite get_set, Nat.eqb_refl; reflexivity|]. exists b'. split; [exact E1|]. destruct E2 as [->|E2]; auto.
      * destruct (B b I) as (b' & E1 & E2). exists b'. auto.
    + intros k b G. destruct (Nat.eqb_spec k (pp_seq_no a)) as [->|N].
      * destruct (C (pp_seq_no a) a) as (b' & E1 & E2); [rewrite get_set, Nat.eqb_refl; reflexivity|]. exists b'. split; [exact E1|]. right. destruct E2 as [->|E2]; auto.
      * destruct (C k b) as (b' & E1 & E2); [rewrite get_set; destruct (Nat.eqb_spec k (pp_seq_no a)); [contradiction|exact G]|]. exists b'. split; [exact E1|]. destruct E2; auto.
    + intros k b G. destruct (D k b G) as [E|E]; [|auto]. rewrite get_set in E. destruct (k =? pp_seq_no a); [injection E as ->; auto|auto].
Qed.
Lemma values_in d b : keyed d -> (In b (sorted (map snd d)) <-> get (pp_seq_no b) d = Some b).
Proof.
  intros (K1 & K2). split.
  - intros I. apply (Permutation_in b (Permutation_sym (sorted_perm _))) in I. apply in_map_iff in I as ((k, b') & E & I). simpl in E. subst b'.
    apply (in_get k d b K1) in I. rewrite (K2 k b I). exact I.
  - intros G. apply (Permutation_in b (sorted_perm _)). apply get_in in G. apply (in_map snd) in G. exact G.
Qed.
Lemma values_nodup d : keyed d -> NoDup (map pp_seq_no (sorted (map snd d))).
Proof.
  intros (K1 & K2). eapply Permutation_NoDup; [apply Permutation_map, sorted_perm|]. rewrite map_map.
  assert (E : map (fun x => pp_seq_no (snd x)) d = map fst d).
  { assert (H : forall k b, In (k, b) d -> pp_seq_no b = k) by (intros k b I; apply K2, in_get; assumption). clear -H. induction d as [|(k, b) d IH]; simpl; [reflexivity|].
    rewrite (H k b (or_introl eq_refl)), IH; [reflexivity|]. intros k' b' I. apply H. right. exact I. }
  rewrite E. exact K1.
Qed.
Definition keyed2 (d : dict (list batch_id)) : Prop := NoDup (map fst d) /\ forall k bs, get k d = Some bs -> NoDup (map pp_digest bs) /\ forall b, In b bs -> pp_seq_no b = k.
Definition has (d : dict (list batch_id)) (b : batch_id) : Prop := In b (get_or (pp_seq_no b) [] d).
Lemma add_preprepared_spec bs : forall d, keyed2 d -> keyed2 (add_preprepared d bs) /\
  (forall b, In b bs -> exists b', has (add_preprepared d bs) b' /\ pp_seq_no b' = pp_seq_no b /\ pp_digest b' = pp_digest b /\ In b' bs) /\
  (forall b, has d b -> exists b', has (add_preprepared d bs) b' /\ pp_seq_no b' = pp_seq_no b /\ pp_digest b' = pp_digest b /\ (b' = b \/ In b' bs)) /\
  (forall b, has (add_preprepared d bs) b -> has d b \/ In b bs).
Proof.
  unfold add_preprepared. induction bs as [|a bs IH]; intros d K; simpl.
  - split; [exact K|]. split; [intros b []|]. split; [intros b G; exists b; auto|auto].
  - set (d1 := set (pp_seq_no a) (filter (fun c => negb (pp_digest c =? pp_digest a)) (get_or (pp_seq_no a) [] d) ++ [a]) d).
    assert (K1 : keyed2 d1).
    { destruct K as (K1 & K2). split; [apply nodup_set, K1|]. intros k l. unfold d1. rewrite get_set. destruct (Nat.eqb_spec k (pp_seq_no a)) as [->|N]; [|apply K2].
      intros E. injection E as <-. assert (P : NoDup (map pp_digest (get_or (pp_seq_no a) [] d)) /\ forall b, In b (get_or (pp_seq_no a) [] d) -> pp_seq_no b = pp_seq_no a).
      { unfold get_or. destruct (get (pp_seq_no a) d) as [l|] eqn:G; [apply (K2 _ _ G)|split; [apply NoDup_nil|intros b []]]. }
      destruct P as (P1 & P2). split.
      - rewrite map_app. apply NoDup_rev in P1. clear -P1. assert (Q : forall l : list batch_id, NoDup (map pp_digest l) -> NoDup (map pp_digest (filter (fun c => negb (pp_digest c =? pp_digest a)) l) ++ [pp_digest a])).
        { clear. induction l as [|c l IH]; simpl; intros N; [apply NoDup_cons; [auto|apply NoDup_nil]|]. inversion N as [|? ? N1 N2]; subst. specialize (IH N2).
          destruct (Nat.eqb_spec (pp_digest c) (pp_digest a)) as [E|E]; simpl; [exact IH|]. apply NoDup_cons; [|exact IH]. rewrite in_app_iff. intros [I|[I|[]]]; [|congruence].
          apply N1. apply in_map_iff in I as (x & <- & I). apply filter_In in I as (I & _). apply in_map, I. }
        apply Q. apply NoDup_rev in P1. rewrite rev_involutive in P1. exact P1.
      - intros b I. apply in_app_iff in I as [I|[<-|[]]]; [|reflexivity]. apply filter_In in I as (I & _). apply P2, I. }
    assert (H1 : forall b, has d1 b <-> (has d b /\ ~ (pp_seq_no b = pp_seq_no a /\ pp_digest b = pp_digest a)) \/ b = a).
    { intros b. unfold has, get_or, d1. rewrite get_set. destruct (Nat.eqb_spec (pp_seq_no b) (pp_seq_no a)) as [E|N].
      - rewrite in_app_iff, filter_In, E. simpl. unfold get_or. destruct (Nat.eqb_spec (pp_digest b) (pp_digest a)); simpl; intuition; try discriminate.
      - intuition congruence. }
    destruct (IH d1 K1) as (A & B & C & D). fold (add_preprepared d1 bs) in *.
    assert (Ea : exists b', has (add_preprepared d1 bs) b' /\ pp_seq_no b' = pp_seq_no a /\ pp_digest b' = pp_digest a /\ (b' = a \/ In b' bs)) by (apply C, H1; auto).
    split; [exact A|]. split; [|split].
    + intros b [<-|I].
      * destruct Ea as (b' & E1 & E2 & E3 & E4). exists b'. split; [exact E1|]. split; [exact E2|]. split; [exact E3|]. destruct E4 as [->|E4]; auto.
      * destruct (B b I) as (b' & E1 & E2 & E3 & E4). exists b'. auto.
    + intros b G. destruct (Nat.eq_dec (pp_seq_no b) (pp_seq_no a)) as [E|N]; [destruct (Nat.eq_dec (pp_digest b) (pp_digest a)) as [F|N]|].
      * destruct Ea as (b' & E1 & E2 & E3 & E4). exists b'. split; [exact E1|]. split; [congruence|]. split; [congruence|]. right. destruct E4 as [->|E4]; auto.
      * destruct (C b) as (b' & E1 & E2 & E3 & E4); [apply H1; left; split; [exact G|tauto]|]. exists b'. intuition.
      * destruct (C b) as (b' & E1 & E2 & E3 & E4); [apply H1; left; split; [exact G|tauto]|]. exists b'. intuition.
    + intros b G. destruct (D b G) as [E|E]; [|auto]. apply H1 in E as [(E & _)| ->]; auto.
Qed.
Lemma values2_in d b : keyed2 d -> (In b (sorted (flat_map snd d)) <-> has d b).
Proof.
  intros (K1 & K2). split.
  - intros I. apply (Permutation_in b (Permutation_sym (sorted_perm _))) in I. apply in_flat_map in I as ((k, l) & I & J). simpl in J.
    apply (in_get k d l K1) in I. destruct (K2 k l I) as (_ & Q). unfold has, get_or. rewrite (Q b J), I. exact J.
  - intros G. apply (Permutation_in b (sorted_perm _)). unfold has, get_or in G. destruct (get (pp_seq_no b) d) as [l|] eqn:E; [|destruct G].
    apply in_flat_map. exists (pp_seq_no b, l). split; [apply get_in, E|exact G].
Qed.
Lemma values2_nodup d : keyed2 d -> NoDup (map (fun b => (pp_seq_no b, pp_digest b)) (sorted (flat_map snd d))).
Proof.
  intros K. eapply Permutation_NoDup; [apply Permutation_map, sorted_perm|].
  assert (H : forall k l, In (k, l) d -> NoDup (map pp_digest l) /\ forall b, In b l -> pp_seq_no b = k) by (intros k l I; apply (proj2 K), in_get; [apply K|exact I]).
  destruct K as (K1 & _). induction d as [|(k, l) d IH]; simpl; [apply NoDup_nil|]. inversion K1 as [|? ? N1 N2]; subst.
  rewrite map_app. destruct (H k l (or_introl eq_refl)) as (H1 & H2). assert (J : NoDup (map (fun b => (pp_seq_no b, pp_digest b)) l)).
  { clear -H1 H2. induction l as [|b l IH]; simpl; [apply NoDup_nil|]. inversion H1 as [|? ? N1 N2]; subst. apply NoDup_cons.
    - intros I. apply N1. apply in_map_iff in I as (c & E & I). injection E as _ E. rewrite <- E. apply in_map, I.
    - apply IH; [exact N2|]. intros c I. apply H2. right. exact I. }
  specialize (IH N2 (fun k' l' I => H k' l' (or_intror I))). clear -J IH N1 H H2.
  assert (Q : forall b, In b l -> ~ In (pp_seq_no b, pp_digest b) (map (fun b => (pp_seq_no b, pp_digest b)) (flat_map snd d))).
  { intros b I X. apply in_map_iff in X as (c & E & X). apply in_flat_map in X as ((k', l') & X & Y). injection E as E _.
    destruct (H k' l' (or_intror X)) as (_ & H3). rewrite (H3 c Y), (H2 b I) in E. subst k'. apply N1. apply (in_map fst) in X. exact X. }
  clear H H2. induction l as [|b l IHl]; simpl; [exact IH|]. simpl in J. inversion J as [|? ? J1 J2]; subst. apply NoDup_cons.
  - rewrite in_app_iff. intros [I|I]; [exact (J1 I)|exact (Q b (or_introl eq_refl) I)].
  - apply IHl; [exact J2|]. intros c I. apply Q. right. exact I.
Qed.
Definition old_ok (ok : nat -> Prop) (l : list entry) (op : dict batch_id) (opp : dict (list batch_id)) : Prop :=
  keyed op /\ keyed2 opp /\
  (forall l1 m0 d0 l2 b, l = l1 ++ LSentVC m0 d0 :: l2 -> In b (vc_prepared m0) -> ok (pp_seq_no b) ->
    (forall m' d', In (LSentVC m' d') l2 -> vc_stable m' < pp_seq_no b) ->
    exists b', get (pp_seq_no b) op = Some b' /\ (b' = b \/ exists m' d', In (LSentVC m' d') l2 /\ In b' (prepared d'))) /\
  (forall k b, get k op = Some b -> exists m' d', In (LSentVC m' d') l /\ In b (prepared d')) /\
  (forall l1 m0 d0 l2 b, l = l1 ++ LSentVC m0 d0 :: l2 -> In b (vc_preprepared m0) -> ok (pp_seq_no b) ->
    (forall m' d', In (LSentVC m' d') l2 -> vc_stable m' < pp_seq_no b) ->
    exists b', has opp b' /\ pp_seq_no b' = pp_seq_no b /\ pp_digest b' = pp_digest b /\
      (b' = b \/ exists m' d', In (LSentVC m' d') l2 /\ In b' (preprepared d'))) /\
  (forall b, has opp b -> exists m' d', In (LSentVC m' d') l /\ In b (preprepared d')).
Lemma old_ok_weaken (ok ok' : nat -> Prop) l op opp : (forall k, ok' k -> ok k) -> old_ok ok l op opp -> old_ok ok' l op opp.
Proof.
  intros W (A & B & C & D & E & F). split; [exact A|]. split; [exact B|]. split; [|split; [exact D|split; [|exact F]]].
  - intros l1 m0 d0 l2 b H1 H2 H3 H4. exact (C l1 m0 d0 l2 b H1 H2 (W _ H3) H4).
  - intros l1 m0 d0 l2 b H1 H2 H3 H4. exact (E l1 m0 d0 l2 b H1 H2 (W _ H3) H4).
Qed.
Lemma split_snoc (l : list entry) x l1 y l2 : l ++ [x] = l1 ++ y :: l2 ->
  (l2 = [] /\ l = l1 /\ x = y) \/ exists l2', l2 = l2' ++ [x] /\ l = l1 ++ y :: l2'.
Proof.
  intros E. destruct l2 as [|z l2] using rev_ind; [left; apply app_inj_tail in E as (-> & ->); auto|]. clear IHl2. right.
  change (l1 ++ y :: l2 ++ [z]) with (l1 ++ (y :: l2) ++ [z]) in E. rewrite app_assoc in E. apply app_inj_tail in E as (-> & ->). exists l2. auto.
Qed.
Definition is_vc (x : entry) : bool := match x with LSentVC _ _ => true | _ => false end.
Lemma old_ok_note ok l op opp x : is_vc x = false -> old_ok ok l op opp -> old_ok ok (l ++ [x]) op opp.
Proof.
  intros N (A & B & C & D & E & F). split; [exact A|]. split; [exact B|].
  split; [|split; [|split]].
  - intros l1 m0 d0 l2 b H1 H2 H3 H4. destruct (split_snoc l x l1 _ l2 H1) as [(_ & _ & ->)|(l2' & -> & H)]; [discriminate|].
    destruct (C l1 m0 d0 l2' b H H2 H3) as (b' & G1 & G2); [intros m' d' I; apply (H4 m' d'), in_app_iff; auto|].
    exists b'. split; [exact G1|]. destruct G2 as [G2|(m' & d' & G2 & G3)]; [auto|]. right. exists m', d'. split; [apply in_app_iff; auto|exact G3].
  - intros k b G. destruct (D k b G) as (m' & d' & I & J). exists m', d'. split; [apply in_app_iff; auto|exact J].
  - intros l1 m0 d0 l2 b H1 H2 H3 H4. destruct (split_snoc l x l1 _ l2 H1) as [(_ & _ & ->)|(l2' & -> & H)]; [discriminate|].
    destruct (E l1 m0 d0 l2' b H H2 H3) as (b' & G0 & G00 & G1 & G2); [intros m' d' I; apply (H4 m' d'), in_app_iff; auto|].
    exists b'. split; [exact G0|]. split; [exact G00|]. split; [exact G1|]. destruct G2 as [G2|(m' & d' & G2 & G3)]; [auto|]. right. exists m', d'. split; [apply in_app_iff; auto|exact G3].
  - intros b G. destruct (F b G) as (m' & d' & I & J). exists m', d'. split; [apply in_app_iff; auto|exact J].
Qed.
Lemma get_clear {V} st (d : dict V) k : get k (clear_old st d) = if k <=? st then None else get k d.
Proof. unfold clear_old. rewrite (get_filter (fun x => negb (x <=? st))). destruct (k <=? st); reflexivity. Qed.
Lemma has_clear st d b : has (clear_old st d) b <-> st < pp_seq_no b /\ has d b.
Proof. unfold has, get_or. rewrite get_clear. destruct (Nat.leb_spec (pp_seq_no b) st); simpl; [split; [intros []|lia]|tauto]. Qed.
Lemma old_ok_clear st l op opp : old_ok (fun k => st < k) l op opp -> old_ok (fun k => st < k) l (clear_old st op) (clear_old st opp).
Proof.
  intros (A & B & C & D & E & F). split; [|split; [|split; [|split; [|split]]]].
  - destruct A as (A1 & A2). split; [apply nodup_filter, A1|]. intros k b. rewrite get_clear. destruct (k <=? st); [discriminate|apply A2].
  - destruct B as (A1 & A2). split; [apply nodup_filter, A1|]. intros k b. rewrite get_clear. destruct (k <=? st); [discriminate|apply A2].
  - intros l1 m0 d0 l2 b H1 H2 H3 H4. destruct (C l1 m0 d0 l2 b H1 H2 H3 H4) as (b' & G1 & G2). exists b'. split; [|exact G2].
    rewrite get_clear. destruct (Nat.leb_spec (pp_seq_no b) st); [lia|exact G1].
  - intros k b G. rewrite get_clear in G. destruct (k <=? st); [discriminate|]. exact (D k b G).
  - intros l1 m0 d0 l2 b H1 H2 H3 H4. destruct (E l1 m0 d0 l2 b H1 H2 H3 H4) as (b' & G1 & G2 & G3). exists b'. split; [|auto]. apply has_clear. rewrite G2. auto.
  - intros b G. apply has_clear in G as (_ & G). exact (F b G).
Qed.
Lemma build_ok v st l op opp c d : old_ok (fun k => st < k) l op opp ->
  let op' := add_prepared op (prepared d) in let opp' := add_preprepared opp (preprepared d) in
  let m := ViewChange v st (sorted (map snd op')) (sorted (flat_map snd opp')) c in
  reports l m d /\ old_ok (fun _ => True) (l ++ [LSentVC m d]) op' opp'.
Proof.
  intros (A & B & C & D & E & F) op' opp' m.
  destruct (add_prepared_spec (prepared d) op A) as (P1 & P2 & P3 & P4). fold op' in P1, P2, P3, P4.
  destruct (add_preprepared_spec (preprepared d) opp B) as (Q1 & Q2 & Q3 & Q4). fold opp' in Q1, Q2, Q3, Q4.
  assert (X1 : forall l1 m0 d0 l2 b, l = l1 ++ LSentVC m0 d0 :: l2 -> In b (vc_prepared m0) ->
    (forall m' d', In (LSentVC m' d') (l2 ++ [LSentVC m d]) -> vc_stable m' < pp_seq_no b) ->
    exists b', get (pp_seq_no b) op' = Some b' /\
      (b' = b \/ exists m' d', In (LSentVC m' d') (l2 ++ [LSentVC m d]) /\ In b' (prepared d'))).
  { intros l1 m0 d0 l2 b H1 H2 H4. destruct (C l1 m0 d0 l2 b H1 H2) as (b' & G1 & G2).
    - apply (H4 m d), in_app_iff. right. left. reflexivity.
    - intros m' d' I. apply (H4 m' d'), in_app_iff. auto.
    - destruct (P3 _ _ G1) as (b'' & G3 & G4). exists b''. split; [exact G3|]. destruct G4 as [->|G4].
      + destruct G2 as [->|(m' & d' & I & J)]; [auto|]. right. exists m', d'. split; [apply in_app_iff; auto|exact J].
      + right. exists m, d. split; [apply in_app_iff; right; left; reflexivity|exact G4]. }
  assert (X2 : forall l1 m0 d0 l2 b, l = l1 ++ LSentVC m0 d0 :: l2 -> In b (vc_preprepared m0) ->
    (forall m' d', In (LSentVC m' d') (l2 ++ [LSentVC m d]) -> vc_stable m' < pp_seq_no b) ->
    exists b', has opp' b' /\ pp_seq_no b' = pp_seq_no b /\ pp_digest b' = pp_digest b /\
      (b' = b \/ exists m' d', In (LSentVC m' d') (l2 ++ [LSentVC m d]) /\ In b' (preprepared d'))).
  { intros l1 m0 d0 l2 b H1 H2 H4. destruct (E l1 m0 d0 l2 b H1 H2) as (b' & G1 & G5 & G6 & G2).
    - apply (H4 m d), in_app_iff. right. left. reflexivity.
    - intros m' d' I. apply (H4 m' d'), in_app_iff. auto.
    - destruct (Q3 _ G1) as (b'' & G3 & G7 & G8 & G4). exists b''. split; [exact G3|]. split; [congruence|]. split; [congruence|]. destruct G4 as [->|G4].
      + destruct G2 as [->|(m' & d' & I & J)]; [auto|]. right. exists m', d'. split; [apply in_app_iff; auto|exact J].
      + right. exists m, d. split; [apply in_app_iff; right; left; reflexivity|exact G4]. }
  assert (X3 : forall k b, get k op' = Some b -> exists m' d', In (LSentVC m' d') (l ++ [LSentVC m d]) /\ In b (prepared d')).
  { intros k b G. destruct (P4 k b G) as [G'|G'].
    - destruct (D k b G') as (m' & d' & I & J). exists m', d'. split; [apply in_app_iff; auto|exact J].
    - exists m, d. split; [apply in_app_iff; right; left; reflexivity|exact G']. }
  assert (X4 : forall b, has opp' b -> exists m' d', In (LSentVC m' d') (l ++ [LSentVC m d]) /\ In b (preprepared d')).
  { intros b G. destruct (Q4 b G) as [G'|G'].
    - destruct (F b G') as (m' & d' & I & J). exists m', d'. split; [apply in_app_iff; auto|exact J].
    - exists m, d. split; [apply in_app_iff; right; left; reflexivity|exact G']. }
  split.
  - split; [|split; [|split; [|split; [|split; [|split; [|split]]]]]].
    + intros b I. destruct (P2 b I) as (b' & G1 & G2). exists b'. assert (W : pp_seq_no b' = pp_seq_no b) by (apply (proj2 P1 _ _ G1)).
      split; [apply values_in; [exact P1|rewrite W; exact G1]|]. auto.
    + intros l1 m0 d0 l2 b H1 H2 H4. destruct (X1 l1 m0 d0 l2 b H1 H2 H4) as (b' & G1 & G2). exists b'. assert (W : pp_seq_no b' = pp_seq_no b) by (apply (proj2 P1 _ _ G1)).
      split; [apply values_in; [exact P1|rewrite W; exact G1]|]. auto.
    + intros b I. apply values_in in I; [|exact P1]. exact (X3 _ _ I).
    + apply values_nodup, P1.
    + intros b I. destruct (Q2 b I) as (b' & G1 & G2). exists b'. split; [apply values2_in; [exact Q1|exact G1]|exact G2].
    + intros l1 m0 d0 l2 b H1 H2 H4. destruct (X2 l1 m0 d0 l2 b H1 H2 H4) as (b' & G1 & G2). exists b'. split; [apply values2_in; [exact Q1|exact G1]|exact G2].
    + intros b I. apply values2_in in I; [|exact Q1]. exact (X4 _ I).
    + apply values2_nodup, Q1.
  - split; [exact P1|]. split; [exact Q1|]. split; [|split; [exact X3|split; [|exact X4]]].
    + intros l1 m0 d0 l2 b H1 H2 _ H4. destruct (split_snoc _ _ _ _ _ H1) as [(-> & -> & H)|(l2' & -> & H)].
      * injection H as <- <-. apply values_in in H2; [|exact P1]. exists b. auto.
      * exact (X1 l1 m0 d0 l2' b H H2 H4).
    + intros l1 m0 d0 l2 b H1 H2 _ H4. destruct (split_snoc _ _ _ _ _ H1) as [(-> & -> & H)|(l2' & -> & H)].
      * injection H as <- <-. apply values2_in in H2; [|exact Q1]. exists b. auto.
      * exact (X2 l1 m0 d0 l2' b H H2 H4).
Qed.

(** *** the invariant *)
Record mid (s : state) : Prop := {
  i_view : view (data s) = view_at (log s);
  i_primary : primary (data s) = Some (primary_at (log s));
  i_nodes : nodes (data s) = pool_at (log s);
  i_waiting : waiting (data s) = waiting_at (log s);
  i_votes : votes_ok (log s) (votes s);
  i_nv : nv_ok (log s) (new_views s);
  i_old : old_ok (fun k => stable (data s) < k) (log s) (old_prepared s) (old_preprepared s);
  i_log : log_ok (log s) }.
Definition stash_ok (s : state) : Prop := forall v, get_or v 0 (stashed_vc_msgs s) = stash_count v (log s).
Definition requests_ok (s : state) : Prop :=
  (forall x d, In (x, d) (requested_vc s) -> In (LReqVC x d) (recent (log s))) /\
  NoDup (received_vc s) /\ (forall x d y, In (x, d, y) (received_vc s) -> In (LRepVC x d y) (recent (log s))) /\
  (forall v, In v (requested_nv s) -> In (LReqNV v) (recent (log s))).
Record inv (s : state) : Prop := {
  i_mid : mid s;
  i_kept : old_ok (fun _ => True) (log s) (old_prepared s) (old_preprepared s);
  i_stash : stash_ok s;
  i_requests : requests_ok s }.
Definition plain (x : entry) : bool :=
  match x with LPropose | LSentAck _ _ | LReqVC _ _ | LRepVC _ _ _ | LReqNV _ | LStashed _ _ | LAsk _ => true | _ => false end.
Lemma mid_note s x : plain x = true -> entry_ok (log s) x -> mid s -> mid (note x s).
Proof.
  intros P O [A B C D E F G H]. constructor; simpl.
  - rewrite view_snoc, A. destruct x; try discriminate; reflexivity.
  - rewrite primary_snoc, B. destruct x; try discriminate; reflexivity.
  - rewrite pool_snoc, C. destruct x; try discriminate; reflexivity.
  - rewrite waiting_snoc, D. destruct x; try discriminate; reflexivity.
  - apply votes_ok_note; [destruct x; try discriminate; reflexivity|exact E].
  - apply nv_ok_note; [destruct x; try discriminate; reflexivity|exact F].
  - apply old_ok_note; [destruct x; try discriminate; reflexivity|exact G].
  - apply log_ok_snoc; assumption.
Qed.
Lemma stash_count_snoc v l x : is_start x = false -> stash_count v (l ++ [x]) = stash_count v l + match x with LStashed w _ => if w =? v then 1 else 0 | _ => 0 end.
Proof.
  intros E. unfold stash_count. rewrite recent_snoc. destruct x; try discriminate; rewrite filter_app, app_length; simpl; try reflexivity; destruct (_ =? _); reflexivity.
Qed.
Lemma requests_note s x : is_start x = false -> requests_ok s -> requests_ok (note x s).
Proof.
  intros E (A & B & C & D). split; [|split; [exact B|split]]; simpl.
  - intros y d I. apply recent_in; [exact E|left; exact (A y d I)].
  - intros y d z I. apply recent_in; [exact E|left; exact (C y d z I)].
  - intros v I. apply recent_in; [exact E|left; exact (D v I)].
Qed.
Lemma stash_note s x : is_start x = false -> (forall v y, x <> LStashed v y) -> stash_ok s -> stash_ok (note x s).
Proof.
  intros E N A v. simpl. rewrite stash_count_snoc by exact E. rewrite (A v). destruct x; try lia. exfalso. exact (N v1 x eq_refl).
Qed.
Definition rest (s : state) : Prop :=
  old_ok (fun _ => True) (log s) (old_prepared s) (old_preprepared s) /\ stash_ok s /\ requests_ok s.
Lemma inv_split s : inv s <-> mid s /\ rest s.
Proof. split; [intros [A B C D]; split; [exact A|split; [exact B|split; assumption]]|intros (A & B & C & D); constructor; assumption]. Qed.
Lemma rest_note s x : is_start x = false -> is_vc x = false -> (forall v y, x <> LStashed v y) -> rest s -> rest (note x s).
Proof.
  intros A B C (D & E & F). split; [apply old_ok_note; assumption|]. split; [apply stash_note; assumption|apply requests_note; assumption].
Qed.
Lemma inv_note s x : plain x = true -> (forall v y, x <> LStashed v y) -> entry_ok (log s) x -> inv s -> inv (note x s).
Proof.
  intros A B C D. apply inv_split in D as (D & E). apply inv_split. split; [apply mid_note; assumption|].
  apply rest_note; [destruct x; try discriminate; reflexivity|destruct x; try discriminate; reflexivity|exact B|exact E].
Qed.

Definition quiet (l : list entry) : Prop := forall e, In e (recent l) -> e = LPropose \/ is_vc e = true.
Lemma quiet_snoc l e : (e = LPropose \/ is_vc e = true) -> quiet l -> quiet (l ++ [e]).
Proof. intros H Q x I. apply recent_in in I; [|destruct H as [->|H]; [reflexivity|destruct e; try discriminate; reflexivity]]. destruct I as [I| ->]; auto. Qed.

Lemma start_mid s v p : mid s ->
  mid (note (LStart v p) (set_data (Shared v true (Some p) (nodes (data s)) (stable (data s)) (cps (data s)) (prepared (data s)) (preprepared (data s)) (prev_cert (data s)))
    (set_new_views (NvStore [] None) (set_votes [] (set_old (clear_old (stable (data s)) (old_prepared s)) (clear_old (stable (data s)) (old_preprepared s)) s))))).
Proof.
  intros [A B C D E F G H]. constructor; simpl.
  - rewrite view_snoc. reflexivity.
  - rewrite primary_snoc. reflexivity.
  - rewrite pool_snoc. exact C.
  - rewrite waiting_snoc. reflexivity.
  - apply votes_ok_start.
  - apply nv_ok_start.
  - apply old_ok_note; [reflexivity|]. apply old_ok_clear, G.
  - apply log_ok_snoc; [exact H|exact I].
Qed.
Lemma send_vc_inv s : mid s -> quiet (log s) ->
  let '(vc, s1) := build s in
  let s' := set_stashed [] (set_votes (add_view_change vc me (votes s1)) (note (LSentVC vc (data s1)) (set_requests [] [] [] s1))) in
  inv s' /\ quiet (log s').
Proof.
  intros [A B C D E F G H] Q. unfold build. cbn zeta.
  destruct (build_ok (view (data s)) (stable (data s)) (log s) (old_prepared s) (old_preprepared s) (cps (data s)) (data s) G) as (R & K).
  set (vc := ViewChange _ _ _ _ _) in *.
  assert (Q' : quiet (log s ++ [LSentVC vc (data s)])) by (apply quiet_snoc; [right; reflexivity|exact Q]).
  split; [|exact Q']. constructor; [constructor|..]; simpl.
  - rewrite view_snoc. exact A.
  - rewrite primary_snoc. exact B.
  - rewrite pool_snoc. exact C.
  - rewrite waiting_snoc. exact D.
  - apply votes_ok_own, E.
  - apply nv_ok_note; [reflexivity|exact F].
  - apply (old_ok_weaken (fun _ => True)); [auto|exact K].
  - apply log_ok_snoc; [exact H|]. simpl. split; [exact A|]. split; [reflexivity|]. split; [reflexivity|exact R].
  - exact K.
  - intros v. simpl. unfold stash_count, get_or. simpl. symmetry. apply length_zero_iff_nil.
    assert (Z : forall l, (forall e, In e l -> e = LPropose \/ is_vc e = true) -> filter (fun e => match e with LStashed w _ => w =? v | _ => false end) l = []).
    { clear. induction l as [|e l IH]; simpl; intros H; [reflexivity|]. rewrite IH by (intros x I; apply H; auto). destruct (H e (or_introl eq_refl)) as [->|X]; [reflexivity|]. destruct e; try discriminate; reflexivity. }
    apply Z, Q'.
  - split; [intros x d []|]. split; [apply NoDup_nil|]. split; [intros x d y []|intros v []].
Qed.
Lemma need_inv asks : forall s, mid s ->
  mid (need_view_change me asks s) /\ (asks <> [] -> inv (need_view_change me asks s) /\ quiet (log (need_view_change me asks s))).
Proof.
  induction asks as [|(w, p) asks IH]; intros s M; [split; [exact M|intros X; contradiction]|].
  cbn [need_view_change]. set (v := match w with Some v => v | None => _ end). cbv zeta.
  pose proof (start_mid s v p M) as M1.
  set (s1 := note (LStart v p) _) in *. assert (Q1 : quiet (log s1)) by (unfold s1; simpl; intros e; rewrite recent_snoc; intros []).
  clearbody s1.
  set (s2 := match primary (data s) with Some old => _ | None => s1 end).
  assert (X : mid s2 /\ quiet (log s2)).
  { unfold s2. destruct (primary (data s)) as [old|]; [|auto]. destruct (old =? p); [|auto].
    assert (M2 : mid (propose s1)) by (apply mid_note; [reflexivity|exact I|exact M1]).
    destruct (IH (propose s1) M2) as (A & B). destruct asks as [|a asks].
    - split; [exact A|]. simpl. apply quiet_snoc; [left; reflexivity|exact Q1].
    - destruct B as (B & C); [discriminate|]. auto. }
  clearbody s2. destruct X as (M2 & Q2). pose proof (send_vc_inv s2 M2 Q2) as Y. destruct (build s2) as (vc, s3). cbv zeta in Y.
  destruct Y as (Y1 & Y2). split; [apply (i_mid _ Y1)|auto].
Qed.

Lemma finish_inv s : inv s -> waiting_at (log s) = true ->
  (forall nv, new_view s = Some nv -> checked (log s) nv \/ exists own l0, log s = l0 ++ [LSentNV own]) ->
  (new_view s = None -> exists own l0, log s = l0 ++ [LSentNV own]) -> inv (finish s).
Proof.
  intros Iv W Hc He. apply inv_split in Iv as ([A B C D E F G H] & R). unfold finish. cbv zeta. unfold new_view in *. cbn [data primary set_data new_views].
  destruct (get_new_view (primary (data s)) (new_views s)) as [nv|] eqn:N.
  - rewrite B in N. pose proof (new_view_source (log s) (new_views s) _ nv F eq_refl N) as Src.
    apply inv_split. split; [constructor|]; simpl.
    + rewrite view_snoc. exact A.
    + rewrite primary_snoc, B. destruct (nw_primary nv); reflexivity.
    + rewrite pool_snoc. exact C.
    + rewrite waiting_snoc. reflexivity.
    + apply votes_ok_note; [reflexivity|exact E].
    + apply nv_ok_note; [reflexivity|exact F].
    + apply old_ok_note; [reflexivity|exact G].
    + apply log_ok_snoc; [exact H|]. simpl. split; [exact W|]. split; [exact Src|]. exact (Hc nv eq_refl).
    + apply (rest_note s (LAccept nv)) in R; [exact R|reflexivity|reflexivity|intros; discriminate].
  - apply inv_split. split; [constructor|]; simpl.
    + rewrite view_snoc. exact A.
    + rewrite primary_snoc. exact B.
    + rewrite pool_snoc. exact C.
    + rewrite waiting_snoc. reflexivity.
    + apply votes_ok_note; [reflexivity|exact E].
    + apply nv_ok_note; [reflexivity|exact F].
    + apply old_ok_note; [reflexivity|exact G].
    + apply log_ok_snoc; [exact H|]. simpl. exact (He eq_refl).
    + apply (rest_note s LError) in R; [exact R|reflexivity|reflexivity|intros; discriminate].
Qed.
Lemma sender_inv s : inv s -> waiting_at (log s) = true -> primary_at (log s) = me -> inv (send_new_view_if_needed me dg nvdg log_size s).
Proof.
  intros Iv W P. unfold send_new_view_if_needed, quorums_of. cbv zeta. pose proof Iv as Iv'. apply inv_split in Iv' as ([A B C D E F G H] & R).
  rewrite C. set (cv := confirmed_votes dg (Quorums (pool_at (log s))) (votes s)).
  destruct (is_reached _ _) eqn:Rq; [|exact Iv]. set (vcs := messages dg (votes s) cv).
  destruct (calc_checkpoint _ vcs) as [cp|] eqn:Cp; [|exact Iv]. destruct (calc_batches _ _ cp vcs) as [bs|] eqn:Bs; [|exact Iv].
  destruct (cp_mem cp (cps (data s))); [|exact Iv]. set (nv := NewView (view (data s)) (sort_by cv) cp bs None).
  assert (Cf : forall x d, In (x, d) cv <-> confirmed (log s) x d) by (intros x d; apply confirmed_iff, E).
  assert (Li : listed (log s) cv vcs).
  { apply messages_listed; [exact E|]. intros x d I. apply Cf in I as (I & _). exact I. }
  assert (Ok : entry_ok (log s) (LSentNV nv)).
  { cbn. split; [exact P|]. split; [exact W|]. split; [exact A|]. split; [reflexivity|].
    split; [eapply Permutation_NoDup; [apply Permutation_map, sort_by_perm|apply confirmed_votes_nodup, E]|].
    split; [rewrite <- (Permutation_length (sort_by_perm cv)); apply Nat.leb_le in Rq; exact Rq|]. split.
    - intros x d. rewrite <- Cf. split; intros I; [apply (Permutation_in _ (Permutation_sym (sort_by_perm cv)) I)|apply (Permutation_in _ (sort_by_perm cv) I)].
    - exists cv, vcs. split; [apply sort_by_perm|]. split; [exact Li|]. split; assumption. }
  apply finish_inv; simpl.
  - apply inv_split. split; [constructor|]; simpl.
    + rewrite view_snoc. exact A.
    + rewrite primary_snoc. exact B.
    + rewrite pool_snoc. exact C.
    + rewrite waiting_snoc. exact D.
    + apply votes_ok_note; [reflexivity|exact E].
    + apply nv_ok_add; [right; auto|exact F].
    + apply old_ok_note; [reflexivity|exact G].
    + apply log_ok_snoc; [exact H|exact Ok].
    + apply (rest_note s (LSentNV nv)) in R; [exact R|reflexivity|reflexivity|intros; discriminate].
  - rewrite waiting_snoc. exact W.
  - intros nv' _. right. exists nv, (log s). reflexivity.
  - intros _. exists nv, (log s). reflexivity.
Qed.
Lemma pair_eqb_eq a b : pair_eqb a b = true <-> a = b.
Proof. unfold pair_eqb. rewrite andb_true_iff, !Nat.eqb_eq. destruct a, b; simpl. split; [intros (-> & ->); reflexivity|intros E; injection E as -> ->; auto]. Qed.
Lemma request_vc_inv s x d : entry_ok (log s) (LReqVC x d) -> inv s -> inv (request_vc x d s).
Proof.
  intros O Iv. pose proof (inv_note s (LReqVC x d) eq_refl ltac:(intros; discriminate) O Iv) as J. unfold request_vc.
  destruct J as [[A B C D E F G H] K L (M1 & M2 & M3 & M4)]. constructor; [constructor; assumption|exact K|exact L|].
  split; [|split; [exact M2|split; [exact M3|exact M4]]]. cbn. intros y e. destruct (existsb (pair_eqb (x, d)) (requested_vc s)); [apply M1|].
  intros I. apply in_app_iff in I as [I|[I|[]]]; [apply M1, I|]. injection I as -> ->. apply recent_in; [reflexivity|auto].
Qed.
Lemma touch_inv s x : inv s -> inv (set_votes (touch x (votes s)) s).
Proof. intros [[A B C D E F G H] K L M]. constructor; [constructor; try assumption; cbn; apply votes_ok_touch, E|exact K|exact L|exact M]. Qed.
Lemma finisher_inv s : inv s -> waiting_at (log s) = true -> inv (finish_if_needed dg log_size s).
Proof.
  intros Iv W. unfold finish_if_needed. pose proof (i_mid _ Iv) as [A B C D E F G H]. destruct (new_view s) as [nv|] eqn:N; [|exact Iv].
  assert (Src : direct (log s) nv \/ quorumed (log s) nv) by (unfold new_view in N; rewrite B in N; exact (new_view_source (log s) (new_views s) _ nv F eq_refl N)).
  destruct (collect dg (votes s) (nw_vcs nv)) as (vcs, miss) eqn:K. destruct miss as [(x, d)|].
  - destruct (collect_missing (log s) (votes s) (nw_vcs nv) vcs x d E K) as (K1 & K2).
    apply request_vc_inv; [|apply touch_inv, Iv]. cbn. exists nv. auto.
  - pose proof (collect_all (log s) (votes s) (nw_vcs nv) vcs E K) as L.
    destruct (new_view_valid _ _ _ _ _) eqn:V.
    + apply finish_inv; [exact Iv|exact W| |congruence]. intros nv' N'. rewrite N in N'. injection N' as <-. left.
      apply new_view_valid_iff in V as (V1 & V2). unfold quorums_of in V1, V2. rewrite C in V1, V2. exists vcs. auto.
    + apply inv_note; [reflexivity|intros; discriminate|exact I|exact Iv].
Qed.
Lemma validate_process v part s : mid s -> validate v part s = PROCESS -> v = view_at (log s) /\ waiting_at (log s) = true /\ part = true.
Proof.
  intros [A _ _ D _ _ _ _]. unfold validate. rewrite A, D. destruct (Nat.ltb_spec v (view_at (log s))); [discriminate|].
  destruct (Nat.eqb_spec v (view_at (log s))) as [->|N]; simpl.
  - destruct (waiting_at (log s)); simpl; [|discriminate]. destruct part; simpl; [auto|discriminate].
  - destruct part; simpl; [|discriminate]. destruct (Nat.ltb_spec (view_at (log s)) v); [discriminate|lia].
Qed.
Lemma validate_stash v part s : mid s -> validate v part s = STASH_WAITING_VIEW_CHANGE -> view_at (log s) < v.
Proof.
  intros [A _ _ D _ _ _ _]. unfold validate. rewrite A. destruct (v <? _); [discriminate|]. destruct (_ && _); [discriminate|].
  destruct part; simpl; [|discriminate]. destruct (Nat.ltb_spec (view_at (log s)) v); [auto|discriminate].
Qed.
Lemma is_primary_iff s : mid s -> is_primary me s = (primary_at (log s) =? me).
Proof. intros [_ B _ _ _ _ _ _]. unfold is_primary. rewrite B. reflexivity. Qed.
Lemma process_vc_inv m x part s : inv s -> inv (process_view_change me dg nvdg log_size m x part s).
Proof.
  intros Iv. unfold process_view_change. pose proof (i_mid _ Iv) as M. destruct (validate (vc_view m) part s) eqn:V; try exact Iv.
  - destruct (validate_process _ _ _ M V) as (Vv & W & _). cbv zeta.
    set (s1 := note (LVC m x) _).
    assert (I1 : inv s1).
    { apply inv_split in Iv as ([A B C D E F G H] & R). apply inv_split. split; [constructor|]; unfold s1; simpl.
      - rewrite view_snoc. exact A.
      - rewrite primary_snoc. exact B.
      - rewrite pool_snoc. exact C.
      - rewrite waiting_snoc. exact D.
      - apply votes_ok_vc, E.
      - apply nv_ok_note; [reflexivity|exact F].
      - apply old_ok_note; [reflexivity|exact G].
      - apply log_ok_snoc; [exact H|]. simpl. auto.
      - apply (rest_note s (LVC m x)) in R; [exact R|reflexivity|reflexivity|intros; discriminate]. }
    assert (W1 : waiting_at (log s1) = true) by (unfold s1; simpl; rewrite waiting_snoc; exact W).
    rewrite (is_primary_iff s1 (i_mid _ I1)). destruct (Nat.eqb_spec (primary_at (log s1)) me) as [P|P].
    + apply sender_inv; assumption.
    + apply finisher_inv; [|cbn [log note]; rewrite waiting_snoc; exact W1]. apply inv_note; [reflexivity|intros; discriminate| |exact I1].
      simpl. split; [exact P|]. exists m. split; [reflexivity|]. unfold s1. simpl. apply recent_in; [reflexivity|auto].
  - pose proof (validate_stash _ _ _ M V) as Vv. cbv zeta. set (c := S (get_or (vc_view m) 0 (stashed_vc_msgs s))).
    set (s1 := note (LStashed (vc_view m) x) _).
    assert (Ec : c = stash_count (vc_view m) (log s1)).
    { unfold c, s1. cbn [log note set_stashed]. rewrite stash_count_snoc by reflexivity. rewrite (i_stash _ Iv), Nat.eqb_refl. lia. }
    assert (I1 : inv s1).
    { apply inv_split in Iv as (A & B & C & D). apply inv_split. split; [|split; [|split]].
      - assert (A1 : mid (note (LStashed (vc_view m) x) s)) by (apply mid_note; [reflexivity|exact Vv|exact A]). destruct A1. constructor; assumption.
      - apply old_ok_note; [reflexivity|exact B].
      - intros v. unfold s1. simpl. rewrite stash_count_snoc by reflexivity. unfold get_or. rewrite get_set. destruct (Nat.eqb_spec v (vc_view m)) as [->|N].
        + rewrite Nat.eqb_refl. unfold c. rewrite (C (vc_view m)). lia.
        + destruct (Nat.eqb_spec (vc_view m) v); [congruence|]. pose proof (C v) as Cv. unfold get_or in Cv. rewrite Cv. lia.
      - apply (requests_note s (LStashed (vc_view m) x)) in D; [exact D|reflexivity]. }
    destruct (is_reached _ _ && _) eqn:Q; [|exact I1]. apply andb_true_iff in Q as (Q1 & Q2). apply inv_note; [reflexivity|intros; discriminate| |exact I1].
    assert (V1 : view_at (log s1) = view_at (log s)) by (unfold s1; simpl; rewrite view_snoc; reflexivity).
    pose proof (i_waiting _ (i_mid _ I1)) as W1. pose proof (i_nodes _ (i_mid _ I1)) as N1.
    refine (conj _ (conj _ _)); [rewrite V1; exact Vv| |].
    + rewrite <- W1. destruct (waiting (data s1)); [discriminate|reflexivity].
    + rewrite <- N1, <- Ec. apply Nat.leb_le in Q1. exact Q1.
Qed.
Lemma process_ack_inv v x d y part s : inv s -> inv (process_ack me dg nvdg log_size v x d y part s).
Proof.
  intros Iv. unfold process_ack. pose proof (i_mid _ Iv) as M. destruct (validate v part s) eqn:V; try exact Iv.
  destruct (validate_process _ _ _ M V) as (Vv & W & _). rewrite (is_primary_iff s M). destruct (Nat.eqb_spec (primary_at (log s)) me) as [P|P]; [|exact Iv].
  apply sender_inv; cbn [log note set_votes]; [|rewrite waiting_snoc; exact W|rewrite primary_snoc; exact P].
  apply inv_split in Iv as ([A B C D E F G H] & R). apply inv_split. split; [constructor|]; simpl.
  - rewrite view_snoc. exact A.
  - rewrite primary_snoc. exact B.
  - rewrite pool_snoc. exact C.
  - rewrite waiting_snoc. exact D.
  - apply votes_ok_ack, E.
  - apply nv_ok_note; [reflexivity|exact F].
  - apply old_ok_note; [reflexivity|exact G].
  - apply log_ok_snoc; [exact H|]. simpl. auto.
  - apply (rest_note s (LAck x d y)) in R; [exact R|reflexivity|reflexivity|intros; discriminate].
Qed.
Lemma process_nv_inv nv x part s : inv s -> inv (process_new_view dg nvdg log_size nv x part s).
Proof.
  intros Iv. unfold process_new_view. pose proof (i_mid _ Iv) as M. destruct (validate (nw_view nv) part s) eqn:V; try exact Iv.
  destruct (validate_process _ _ _ M V) as (Vv & W & _).
  apply finisher_inv; cbn [log note set_new_views]; [|rewrite waiting_snoc; exact W].
  apply inv_split in Iv as ([A B C D E F G H] & R). apply inv_split. split; [constructor|]; simpl.
  - rewrite view_snoc. exact A.
  - rewrite primary_snoc. exact B.
  - rewrite pool_snoc. exact C.
  - rewrite waiting_snoc. exact D.
  - apply votes_ok_note; [reflexivity|exact E].
  - unfold quorums_of. rewrite C. apply nv_ok_add; [auto|exact F].
  - apply old_ok_note; [reflexivity|exact G].
  - apply log_ok_snoc; [exact H|]. simpl. auto.
  - apply (rest_note s (LNV nv x)) in R; [exact R|reflexivity|reflexivity|intros; discriminate].
Qed.
Lemma reply_vc_pre m x d y part s : inv s -> existsb (pair_eqb (x, d)) (requested_vc s) = true ->
  let rc := if existsb (fun e => pair_eqb (fst e) (x, d) && (snd e =? y)) (received_vc s) then received_vc s else received_vc s ++ [(x, d, y)] in
  let s1 := note (LRepVC x d y) (set_requests (requested_vc s) rc (requested_nv s) s) in
  inv s1 /\ inv (process_view_change me dg nvdg log_size m x part
     (set_requests (filter (fun e => negb (pair_eqb e (x, d))) (requested_vc s1)) rc (requested_nv s1) s1)).
Proof.
  intros Iv Q rc s1. assert (O : In (LReqVC x d) (recent (log s))).
  { apply existsb_exists in Q as (e & Q1 & Q2). apply pair_eqb_eq in Q2 as <-. apply (proj1 (i_requests _ Iv)), Q1. }
  assert (I1 : inv s1).
  { pose proof (inv_note s (LRepVC x d y) eq_refl ltac:(intros; discriminate) O Iv) as J. destruct J as [[A B C D E F G H] K L (M1 & M2 & M3 & M4)].
    constructor; [constructor; assumption|exact K|exact L|]. split; [exact M1|]. split; [|split; [|exact M4]].
    - simpl. unfold rc. destruct (existsb _ (received_vc s)) eqn:X; [exact M2|]. cbn in M2. clear -X M2.
      assert (N : ~ In (x, d, y) (received_vc s)).
      { intros I. assert (X' : existsb (fun e => pair_eqb (fst e) (x, d) && (snd e =? y)) (received_vc s) = true); [|congruence].
        apply existsb_exists. exists (x, d, y). split; [exact I|]. simpl. rewrite Nat.eqb_refl, (proj2 (pair_eqb_eq _ _) eq_refl). reflexivity. }
      revert N M2. generalize (received_vc s) as l. induction l as [|e l IH]; simpl; intros N M; [apply NoDup_cons; [auto|apply NoDup_nil]|].
      inversion M as [|? ? M1 M2]; subst. apply NoDup_cons; [rewrite in_app_iff; simpl; intros [I|[I|[]]]; [auto|apply N; auto]|apply IH; [intros I; apply N; auto|exact M2]].
    - intros x' d' y'. simpl. unfold rc. destruct (existsb _ (received_vc s)); [apply M3|]. intros I. apply in_app_iff in I as [I|[I|[]]]; [apply M3, I|].
      injection I as <- <- <-. apply recent_in; [reflexivity|auto]. }
  split; [exact I1|]. apply process_vc_inv. destruct I1 as [[A B C D E F G H] K L (M1 & M2 & M3 & M4)].
  constructor; [constructor; assumption|exact K|exact L|]. split; [|split; [exact M2|split; [exact M3|exact M4]]].
  simpl. intros x' d' I. apply filter_In in I as (I & _). apply M1, I.
Qed.
Lemma step_inv o s : inv s -> inv (step me dg nvdg log_size o s).
Proof.
  intros Iv. destruct o as [asks|m x part|v x d y part|nv x part|m x d y part|nv v y part| |st c p pp|n|av p]; cbn [step].
  - destruct asks as [|a asks]; [exact Iv|]. destruct (need_inv (a :: asks) s (i_mid _ Iv)) as (_ & B). apply B. discriminate.
  - apply process_vc_inv, Iv.
  - apply process_ack_inv, Iv.
  - apply process_nv_inv, Iv.
  - unfold process_vc_reply. destruct (negb _); [exact Iv|]. destruct (existsb (pair_eqb (x, d)) (requested_vc s)) eqn:Q; [|exact Iv].
    destruct (reply_vc_pre m x d y part s Iv Q) as (A & B). cbn zeta in *. cbn [negb]. destruct (_ && _); [exact A|exact B].
  - unfold process_nv_reply. destruct (negb _); [exact Iv|]. destruct (new_view s); [exact Iv|]. destruct (negb _); [exact Iv|]. destruct (_ <? _); [exact Iv|]. apply process_nv_inv, Iv.
  - unfold timeout, propose. cbv zeta. pose proof (inv_note s LPropose eq_refl ltac:(intros; discriminate) I Iv) as J.
    destruct (new_view _); [exact J|]. set (s1 := note LPropose s) in *. clearbody s1.
    pose proof (inv_note s1 (LReqNV (view (data s1))) eq_refl ltac:(intros; discriminate) I J) as [[A B C D E F G H] K L (M1 & M2 & M3 & M4)].
    constructor; [constructor; assumption|exact K|exact L|]. split; [exact M1|split; [exact M2|split; [exact M3|]]].
    intros w Iw. cbn in Iw. apply add_in in Iw as [->|Iw]; [apply recent_in; [reflexivity|auto]|apply M4, Iw].
  - destruct Iv as [[A B C D E F G H] K L M]. constructor; [constructor; try assumption|exact K|exact L|exact M]. cbn. apply (old_ok_weaken (fun _ => True)); [auto|exact K].
  - apply inv_split in Iv as ([A B C D E F G H] & R). apply inv_split. split; [constructor|]; simpl.
    + rewrite view_snoc. exact A.
    + rewrite primary_snoc. exact B.
    + rewrite pool_snoc. reflexivity.
    + rewrite waiting_snoc. exact D.
    + apply votes_ok_note; [reflexivity|exact E].
    + apply nv_ok_note; [reflexivity|exact F].
    + apply old_ok_note; [reflexivity|exact G].
    + apply log_ok_snoc; [exact H|exact I].
    + apply (rest_note s (LPool n)) in R; [exact R|reflexivity|reflexivity|intros; discriminate].
  - apply inv_split in Iv as ([A B C D E F G H] & R). apply inv_split. split; [constructor|]; simpl.
    + rewrite view_snoc. reflexivity.
    + rewrite primary_snoc. reflexivity.
    + rewrite pool_snoc. exact C.
    + rewrite waiting_snoc. exact D.
    + apply votes_ok_note; [reflexivity|exact E].
    + apply nv_ok_note; [reflexivity|exact F].
    + apply old_ok_note; [reflexivity|exact G].
    + apply log_ok_snoc; [exact H|exact I].
    + apply (rest_note s (LCatchup (match av with Some v => v | None => view (data s) end) p)) in R; [exact R|reflexivity|reflexivity|intros; discriminate].
Qed.
Lemma init_inv : inv (init v0 n0 p0).
Proof.
  constructor; [constructor|..]; simpl; try reflexivity.
  - split; [apply NoDup_nil|]. intros x. split; [reflexivity|]. intros d. split; [apply NoDup_nil|]. intros y. unfold ViewChange_Props.acked. simpl. intuition. destruct H1 as (? & ? & []).
  - split; [apply NoDup_nil|]. split; [intros; discriminate|]. split; [|intros; discriminate]. intros nv y. unfold ViewChange_Props.sent_nv. simpl. intuition.
  - split; [split; [apply NoDup_nil|intros; discriminate]|]. split; [split; [apply NoDup_nil|intros; discriminate]|].
    split; [intros l1 m0 d0 l2 b E; destruct l1; discriminate|]. split; [intros; discriminate|]. split; [intros l1 m0 d0 l2 b E; destruct l1; discriminate|intros b []].
  - intros l1 x l2 E. destruct l1; discriminate.
  - split; [split; [apply NoDup_nil|intros; discriminate]|]. split; [split; [apply NoDup_nil|intros; discriminate]|].
    split; [intros l1 m0 d0 l2 b E; destruct l1; discriminate|]. split; [intros; discriminate|]. split; [intros l1 m0 d0 l2 b E; destruct l1; discriminate|intros b []].
  - intros v. reflexivity.
  - split; [intros x d []|]. split; [apply NoDup_nil|]. split; [intros x d y []|intros v []].
Qed.
Lemma run_inv ops : inv (run me dg nvdg log_size ops (init v0 n0 p0)).
Proof.
  unfold run. assert (G : forall ops s, inv s -> inv (fold_left (fun s o => step me dg nvdg log_size o s) ops s)).
  { clear. induction ops as [|o ops IH]; intros s J; simpl; [exact J|]. apply IH, step_inv, J. }
  apply G, init_inv.
Qed.

(** *** what each operation appends *)
Definition ends (e : entry) : bool := match e with LAccept _ | LError => true | _ => false end.
Definition good (l : list entry) : Prop := forall l1 nv l2, l = l1 ++ LSentNV nv :: l2 -> exists e l3, l2 = e :: l3 /\ ends e = true.
Lemma good_app a b : good a -> good b -> good (a ++ b).
Proof.
  intros A B l1 nv l2 E. revert a A E. induction l1 as [|x l1 IH]; intros a A E.
  - destruct a as [|y a]; [exact (B [] nv l2 E)|]. injection E as -> E. destruct (A [] nv a eq_refl) as (e & l3 & -> & X). exists e, (l3 ++ b). split; [|exact X]. simpl in E. auto.
  - destruct a as [|y a]; [exact (B (x :: l1) nv l2 E)|]. injection E as -> E. apply (IH a); [|exact E]. intros l1' nv' l2' E'. apply (A (x :: l1') nv' l2'). rewrite E'. reflexivity.
Qed.
Lemma good_one e : (forall nv, e <> LSentNV nv) -> good [e].
Proof. intros H l1 nv l2 E. destruct l1 as [|x [|y l1]]; try discriminate. injection E as -> _. exfalso. exact (H nv eq_refl). Qed.
Lemma good_nil : good [].
Proof. intros l1 nv l2 E. destruct l1; discriminate. Qed.
Definition extends (s s' : state) : Prop := exists e, log s' = log s ++ e /\ good e.
Lemma extends_refl s : extends s s.
Proof. exists []. rewrite app_nil_r. split; [reflexivity|apply good_nil]. Qed.
Lemma extends_eq s s' : log s' = log s -> extends s s'.
Proof. intros E. exists []. rewrite app_nil_r, E. split; [reflexivity|apply good_nil]. Qed.
Lemma extends_trans a b c : extends a b -> extends b c -> extends a c.
Proof. intros (e & E & G) (f & F & H). exists (e ++ f). rewrite F, E, app_assoc. split; [reflexivity|apply good_app; assumption]. Qed.
Lemma extends_note s s' x : log s' = log s ++ [x] -> (forall nv, x <> LSentNV nv) -> extends s s'.
Proof. intros E N. exists [x]. split; [exact E|apply good_one, N]. Qed.
Lemma finish_log s : exists e, log (finish s) = log s ++ [e] /\ ends e = true.
Proof. unfold finish. cbv zeta. destruct (new_view _) as [nv|]; [exists (LAccept nv)|exists LError]; split; reflexivity. Qed.
Lemma sender_extends s : extends s (send_new_view_if_needed me dg nvdg log_size s).
Proof.
  unfold send_new_view_if_needed. cbv zeta. destruct (is_reached _ _); [|apply extends_refl]. destruct (calc_checkpoint _ _) as [cp|]; [|apply extends_refl].
  destruct (calc_batches _ _ _ _) as [bs|]; [|apply extends_refl]. destruct (cp_mem _ _); [|apply extends_refl].
  match goal with |- extends _ (finish ?t) => destruct (finish_log t) as (e & E & X) end. cbn [log set_new_views note] in E. rewrite <- app_assoc in E.
  eexists. split; [exact E|]. intros l1 nv l2 H. destruct l1 as [|a [|b [|c l1]]]; try discriminate; injection H as H1 H2.
  - subst. exists e, []. auto.
  - subst. discriminate.
Qed.
Lemma finisher_extends s : extends s (finish_if_needed dg log_size s).
Proof.
  unfold finish_if_needed. destruct (new_view s) as [nv|]; [|apply extends_refl]. destruct (collect _ _ _) as (vcs, [(x, d)|]).
  - apply (extends_note _ _ (LReqVC x d)); [reflexivity|intros; discriminate].
  - destruct (new_view_valid _ _ _ _ _); [|apply (extends_note _ _ LPropose); [reflexivity|intros; discriminate]].
    destruct (finish_log s) as (e & E & X). apply (extends_note _ _ e); [exact E|intros nv' ->; discriminate].
Qed.
Lemma process_vc_extends m x part s : extends s (process_view_change me dg nvdg log_size m x part s).
Proof.
  unfold process_view_change. destruct (validate _ _ _); try apply extends_refl; cbv zeta.
  - set (s1 := note (LVC m x) _). assert (E1 : extends s s1) by (apply (extends_note _ _ (LVC m x)); [reflexivity|intros; discriminate]). clearbody s1.
    eapply extends_trans; [exact E1|]. destruct (is_primary me s1); [apply sender_extends|]. eapply extends_trans; [|apply finisher_extends].
    apply (extends_note _ _ (LSentAck x (dg m))); [reflexivity|intros; discriminate].
  - set (s1 := note (LStashed _ x) _). assert (E1 : extends s s1) by (apply (extends_note _ _ (LStashed (vc_view m) x)); [reflexivity|intros; discriminate]). clearbody s1.
    destruct (_ && _); [|exact E1]. eapply extends_trans; [exact E1|]. apply (extends_note _ _ (LAsk (vc_view m))); [reflexivity|intros; discriminate].
Qed.
Lemma process_nv_extends nv x part s : extends s (process_new_view dg nvdg log_size nv x part s).
Proof.
  unfold process_new_view. destruct (validate _ _ _); try apply extends_refl. eapply extends_trans; [|apply finisher_extends].
  apply (extends_note _ _ (LNV nv x)); [reflexivity|intros; discriminate].
Qed.
Lemma need_extends asks : forall s, extends s (need_view_change me asks s).
Proof.
  induction asks as [|(w, p) asks IH]; intros s; [apply extends_refl|]. cbn [need_view_change]. cbv zeta.
  set (v := match w with Some v => v | None => _ end). set (s1 := note (LStart v p) _).
  assert (E1 : extends s s1) by (apply (extends_note _ _ (LStart v p)); [reflexivity|intros; discriminate]). clearbody s1.
  set (s2 := match primary (data s) with Some old => _ | None => s1 end).
  assert (E2 : extends s1 s2).
  { unfold s2. destruct (primary (data s)) as [old|]; [|apply extends_refl]. destruct (old =? p); [|apply extends_refl].
    eapply extends_trans; [|apply IH]. apply (extends_note _ _ LPropose); [reflexivity|intros; discriminate]. }
  clearbody s2. eapply extends_trans; [exact E1|]. eapply extends_trans; [exact E2|]. unfold build. cbv zeta.
  match goal with |- extends _ (set_stashed _ (set_votes _ (note ?x _))) => apply (extends_note _ _ x); [reflexivity|intros; discriminate] end.
Qed.
Lemma step_extends o s : extends s (step me dg nvdg log_size o s).
Proof.
  destruct o as [asks|m x part|v x d y part|nv x part|m x d y part|nv v y part| |st c p pp|n|av p]; cbn [step].
  - apply need_extends.
  - apply process_vc_extends.
  - unfold process_ack. destruct (validate _ _ _); try apply extends_refl. destruct (is_primary me s); [|apply extends_refl].
    eapply extends_trans; [|apply sender_extends]. apply (extends_note _ _ (LAck x d y)); [reflexivity|intros; discriminate].
  - apply process_nv_extends.
  - unfold process_vc_reply. destruct (negb _); [apply extends_refl|]. destruct (negb _); [apply extends_refl|]. cbv zeta.
    match goal with |- context [note (LRepVC x d y) ?t] => set (s1 := note (LRepVC x d y) t) end.
    assert (E1 : extends s s1) by (apply (extends_note _ _ (LRepVC x d y)); [reflexivity|intros; discriminate]). clearbody s1.
    destruct (_ && _); [exact E1|]. eapply extends_trans; [exact E1|]. eapply extends_trans; [|apply process_vc_extends]. apply extends_eq. reflexivity.
  - unfold process_nv_reply. destruct (negb _); [apply extends_refl|]. destruct (new_view s); [apply extends_refl|]. destruct (negb _); [apply extends_refl|].
    destruct (_ <? _); [apply extends_refl|]. apply process_nv_extends.
  - unfold timeout. cbv zeta. assert (E1 : extends s (propose s)) by (apply (extends_note _ _ LPropose); [reflexivity|intros; discriminate]).
    destruct (new_view _); [exact E1|]. eapply extends_trans; [exact E1|]. eapply extends_note; [reflexivity|intros; discriminate].
  - apply extends_eq. reflexivity.
  - apply (extends_note _ _ (LPool n)); [reflexivity|intros; discriminate].
  - eapply extends_note; [reflexivity|intros; discriminate].
Qed.
Lemma run_good ops : good (log (run me dg nvdg log_size ops (init v0 n0 p0))).
Proof.
  unfold run. assert (G : forall ops s, good (log s) -> good (log (fold_left (fun s o => step me dg nvdg log_size o s) ops s))).
  { clear. induction ops as [|o ops IH]; intros s J; simpl; [exact J|]. apply IH. destruct (step_extends o s) as (e & -> & G). apply good_app; assumption. }
  apply G, good_nil.
Qed.

(** *** when a replica finishes *)
Definition held (l : list entry) (vcs : list (nat * nat)) : Prop := forall x d, In (x, d) vcs -> exists m, vc_of l x = Some m /\ dg m = d.
Lemma listed_unique l vcs ms ms' : listed l vcs ms -> listed l vcs ms' -> ms = ms'.
Proof.
  intros A. revert ms'. induction A as [|xd m vcs ms (H1 & H2) A IH]; intros ms' B; inversion B; subst; [reflexivity|]. f_equal; [|auto]. destruct H3 as (H3 & _). congruence.
Qed.
Lemma collect_listed l vs vcs ms : votes_ok l vs -> listed l vcs ms -> collect dg vs vcs = (ms, None).
Proof.
  intros V L. induction L as [|(x, d) m vcs ms (H1 & H2) L IH]; [reflexivity|]. simpl in *.
  rewrite (proj2 (get_view_change_iff l vs x d m V) (conj H1 H2)), IH. reflexivity.
Qed.
Definition only_nv (l : list entry) (nv : new_view_msg) : Prop :=
  sent_nv l nv (primary_at l) /\ nw_primary nv = None /\ forall nv' y, sent_nv l nv' y -> nv' = nv /\ y = primary_at l.
Lemma fold_recent_sub l2 : forall r, (forall v p, ~ In (LStart v p) l2) -> forall e, In e r -> In e (fold_left (fun r x => match x with LStart _ _ => [] | _ => r ++ [x] end) l2 r).
Proof.
  induction l2 as [|x l2 IH]; intros r N e I; simpl; [exact I|]. apply IH; [intros v p J; apply (N v p); right; exact J|].
  destruct x; try (apply in_app_iff; left; exact I). exfalso. exact (N v p (or_introl eq_refl)).
Qed.
Lemma new_view_only l st nv : nv_ok l st -> only_nv l nv -> get_new_view (Some (primary_at l)) st = Some nv.
Proof.
  intros (A & B & C & D) (S0 & P & U). unfold get_new_view. destruct (nv_quorumed st) as [nv'|] eqn:Q.
  - destruct (D nv' eq_refl) as (l1 & l2 & ys & E & N & _ & _ & (y & S1) & _). f_equal. apply (U nv' y).
    rewrite E. unfold ViewChange_Props.sent_nv, recent in *. rewrite fold_left_app. destruct S1 as [S1|(-> & S1)]; [left|right; split; [reflexivity|]]; apply fold_recent_sub; assumption.
  - destruct (get (nvdg nv) (nv_votes st)) as [(m, xs)|] eqn:G; [|exfalso; exact (C nv _ S0 G)].
    assert (X : forall k m xs, get k (nv_votes st) = Some (m, xs) -> m = nv /\ xs = [primary_at l]).
    { intros k m' xs' G'. destruct (B k m' xs' G') as (H1 & H2 & (y & zs & -> & H4) & H5). destruct (U m' y H4) as (-> & ->). split; [reflexivity|].
      destruct zs as [|z zs]; [reflexivity|]. exfalso. assert (I : In z (primary_at l :: z :: zs)) by (right; left; reflexivity).
      apply H5 in I as (nv' & _ & I). apply U in I as (_ & ->). inversion H2 as [|? ? N1 _]; subst. apply N1. left. reflexivity. }
    destruct (find (from_primary (Some (primary_at l))) (nv_votes st)) as [(k, (m', xs'))|] eqn:F.
    + apply find_some in F as (F & _). apply (in_get k (nv_votes st) _ A) in F. destruct (X _ _ _ F) as (-> & _). reflexivity.
    + exfalso. destruct (X _ _ _ G) as (-> & ->). apply get_in in G. apply (find_none _ _ F) in G. cbn in G. rewrite P, Nat.eqb_refl in G. discriminate.
Qed.
Lemma finisher_log s nv : inv s -> only_nv (log s) nv ->
  exists e, log (finish_if_needed dg log_size s) = log s ++ [e] /\
   ((exists x d, e = LReqVC x d /\ In (x, d) (nw_vcs nv) /\ forall m, vc_of (log s) x = Some m -> dg m <> d) \/
    (held (log s) (nw_vcs nv) /\ ((checked (log s) nv /\ e = LAccept nv) \/ (~ checked (log s) nv /\ e = LPropose)))).
Proof.
  intros Iv O. pose proof (i_mid _ Iv) as [A B C D E F G H]. unfold finish_if_needed. pose proof (new_view_only _ _ _ F O) as N.
  assert (N' : new_view s = Some nv) by (unfold new_view; rewrite B; exact N). rewrite N'.
  destruct (collect dg (votes s) (nw_vcs nv)) as (vcs, [(x, d)|]) eqn:K.
  - exists (LReqVC x d). split; [reflexivity|]. left. exists x, d. split; [reflexivity|]. exact (collect_missing _ _ _ _ _ _ E K).
  - pose proof (collect_all _ _ _ _ E K) as L.
    assert (Hd : held (log s) (nw_vcs nv)).
    { intros x d I. clear -L I. induction L as [|(y, e) m vcs' ms H L IH]; [destruct I|]. destruct I as [I|I]; [injection I as -> ->; exists m; exact H|auto]. }
    destruct (new_view_valid _ _ _ _ _) eqn:V.
    + exists (LAccept nv). split.
      * unfold finish. cbv zeta. unfold new_view. cbn [data primary set_data new_views]. rewrite B, N. reflexivity.
      * right. split; [exact Hd|]. left. split; [|reflexivity]. apply new_view_valid_iff in V as (V1 & V2). unfold quorums_of in *. rewrite C in *. exists vcs. auto.
    + exists LPropose. split; [reflexivity|]. right. split; [exact Hd|]. right. split; [|reflexivity].
      intros (ms & L' & V1 & V2). rewrite (listed_unique _ _ _ _ L' L) in *. unfold quorums_of in V. rewrite C in V.
      assert (V' : new_view_valid (Quorums (pool_at (log s))) log_size vcs (nw_cp nv) (nw_batches nv) = true) by (apply new_view_valid_iff; auto). congruence.
Qed.
Lemma only_nv_snoc l e nv : nv_entry e = false -> (match e with LCatchup _ _ | LAccept _ => false | _ => true end = true) -> only_nv (l ++ [e]) nv <-> only_nv l nv.
Proof.
  intros N M. assert (S0 : is_start e = false) by (destruct e; try discriminate; reflexivity). unfold only_nv. rewrite primary_snoc.
  assert (P : match e with LStart _ p | LCatchup _ p => p | LAccept nv0 => match nw_primary nv0 with Some p => p | None => primary_at l end | _ => primary_at l end = primary_at l) by (destruct e; try discriminate; reflexivity).
  rewrite P. assert (K : forall nv y, sent_nv (l ++ [e]) nv y <-> sent_nv l nv y) by (intros nv' y; rewrite sent_nv_snoc by exact S0; intuition; subst; discriminate).
  rewrite K. split; intros (X & Y & Z); (split; [exact X|]; split; [exact Y|]); intros nv' y W; apply (Z nv' y), K, W.
Qed.
Lemma validate_current v s : inv s -> v = view_at (log s) -> waiting_at (log s) = true -> validate v true s = PROCESS.
Proof.
  intros Iv -> W. destruct (i_mid _ Iv) as [A _ _ D _ _ _ _]. unfold validate. rewrite A, D, W, Nat.ltb_irrefl, Nat.eqb_refl. reflexivity.
Qed.
Lemma inv_vc m x s : inv s -> vc_view m = view_at (log s) -> waiting_at (log s) = true ->
  inv (note (LVC m x) (set_votes (add_ack x (dg m) me (add_view_change m x (votes s))) s)).
Proof.
  intros Iv V W. apply inv_split in Iv as ([A B C D E F G H] & R0). apply inv_split. split; [constructor|]; simpl.
  - rewrite view_snoc. exact A.
  - rewrite primary_snoc. exact B.
  - rewrite pool_snoc. exact C.
  - rewrite waiting_snoc. exact D.
  - apply votes_ok_vc, E.
  - apply nv_ok_note; [reflexivity|exact F].
  - apply old_ok_note; [reflexivity|exact G].
  - apply log_ok_snoc; [exact H|]. simpl. auto.
  - apply (rest_note s (LVC m x)) in R0; [exact R0|reflexivity|reflexivity|intros; discriminate].
Qed.
Lemma inv_ack x d y s : inv s -> primary_at (log s) = me -> waiting_at (log s) = true ->
  inv (note (LAck x d y) (set_votes (add_ack x d y (votes s)) s)).
Proof.
  intros Iv V W. apply inv_split in Iv as ([A B C D E F G H] & R0). apply inv_split. split; [constructor|]; simpl.
  - rewrite view_snoc. exact A.
  - rewrite primary_snoc. exact B.
  - rewrite pool_snoc. exact C.
  - rewrite waiting_snoc. exact D.
  - apply votes_ok_ack, E.
  - apply nv_ok_note; [reflexivity|exact F].
  - apply old_ok_note; [reflexivity|exact G].
  - apply log_ok_snoc; [exact H|]. simpl. auto.
  - apply (rest_note s (LAck x d y)) in R0; [exact R0|reflexivity|reflexivity|intros; discriminate].
Qed.
Lemma inv_nv nv x s : inv s -> nw_view nv = view_at (log s) -> waiting_at (log s) = true ->
  inv (note (LNV nv x) (set_new_views (add_new_view nvdg (quorums_of s) nv x (new_views s)) s)).
Proof.
  intros Iv V W. apply inv_split in Iv as ([A B C D E F G H] & R0). apply inv_split. split; [constructor|]; simpl.
  - rewrite view_snoc. exact A.
  - rewrite primary_snoc. exact B.
  - rewrite pool_snoc. exact C.
  - rewrite waiting_snoc. exact D.
  - apply votes_ok_note; [reflexivity|exact E].
  - unfold quorums_of. rewrite C. apply nv_ok_add; [auto|exact F].
  - apply old_ok_note; [reflexivity|exact G].
  - apply log_ok_snoc; [exact H|]. simpl. auto.
  - apply (rest_note s (LNV nv x)) in R0; [exact R0|reflexivity|reflexivity|intros; discriminate].
Qed.
Lemma sender_log s : inv s -> exists order ms, NoDup (map fst order) /\ (forall x d, In (x, d) order <-> confirmed (log s) x d) /\ listed (log s) order ms /\
  (pool_at (log s) - getMaxFailures (pool_at (log s)) <= length order -> forall cp bs,
   calc_checkpoint (Quorums (pool_at (log s))) ms = Some cp -> calc_batches (Quorums (pool_at (log s))) log_size cp ms = Some bs -> In cp (cps (data s)) ->
   exists vcs e, Permutation order vcs /\ log (send_new_view_if_needed me dg nvdg log_size s) = log s ++ [LSentNV (NewView (view_at (log s)) vcs cp bs None); e] /\ ends e = true).
Proof.
  intros Iv. destruct (i_mid _ Iv) as [A B C D E F G H]. set (cv := confirmed_votes dg (Quorums (pool_at (log s))) (votes s)).
  assert (Cf : forall x d, In (x, d) cv <-> confirmed (log s) x d) by (intros x d; apply confirmed_iff, E).
  exists cv, (messages dg (votes s) cv). split; [apply confirmed_votes_nodup, E|]. split; [exact Cf|]. split.
  { apply messages_listed; [exact E|]. intros x d I. apply Cf in I as (I & _). exact I. }
  intros L cp bs Cp Bs I. unfold send_new_view_if_needed, quorums_of. cbv zeta. rewrite C. fold cv. 
  assert (R : is_reached (view_change (Quorums (pool_at (log s)))) (length cv) = true) by (apply Nat.leb_le; exact L). rewrite R, Cp, Bs.
  assert (M : cp_mem cp (cps (data s)) = true) by (apply existsb_exists; exists cp; split; [exact I|apply cp_eqb_refl]). rewrite M.
  match goal with |- context [finish ?t] => destruct (finish_log t) as (e & W & X) end. cbn [log set_new_views note] in W. rewrite <- app_assoc in W.
  exists (sort_by cv), e. split; [apply sort_by_perm|]. split; [rewrite <- A; exact W|exact X].
Qed.
End Proofs.

Section More.
Variables (me : nat) (dg : view_change_msg -> nat) (nvdg : new_view_msg -> nat) (log_size : nat).
(** *** which ViewChanges an operation processes *)
Definition no_vc (e : entry) : Prop := forall m x, e <> LVC m x.
Definition adds (P : entry -> Prop) (s s' : state) : Prop := exists e, log s' = log s ++ e /\ Forall P e.
Lemma adds_refl P s s' : log s' = log s -> adds P s s'.
Proof. intros E. exists []. rewrite app_nil_r. auto. Qed.
Lemma adds_trans P a b c : adds P a b -> adds P b c -> adds P a c.
Proof. intros (e & E & G) (f & F & H). exists (e ++ f). rewrite F, E, app_assoc. split; [reflexivity|apply Forall_app; auto]. Qed.
Lemma adds_note (P : entry -> Prop) s s' x : log s' = log s ++ [x] -> P x -> adds P s s'.
Proof. intros E N. exists [x]. auto. Qed.
Lemma adds_weaken (P Q : entry -> Prop) s s' : (forall e, P e -> Q e) -> adds P s s' -> adds Q s s'.
Proof. intros W (e & E & F). exists e. split; [exact E|]. revert F. apply Forall_impl, W. Qed.
Lemma finish_adds s : adds no_vc s (finish s).
Proof. destruct (finish_log s) as (e & E & X). apply (adds_note _ _ _ e E). intros m x ->. discriminate. Qed.
Lemma sender_adds s : adds no_vc s (send_new_view_if_needed me dg nvdg log_size s).
Proof.
  unfold send_new_view_if_needed. cbv zeta. destruct (is_reached _ _); [|apply adds_refl; reflexivity]. destruct (calc_checkpoint _ _) as [cp|]; [|apply adds_refl; reflexivity].
  destruct (calc_batches _ _ _ _) as [bs|]; [|apply adds_refl; reflexivity]. destruct (cp_mem _ _); [|apply adds_refl; reflexivity].
  eapply adds_trans; [|apply finish_adds]. eapply adds_note; [reflexivity|]. intros m x. discriminate.
Qed.
Lemma finisher_adds s : adds no_vc s (finish_if_needed dg log_size s).
Proof.
  unfold finish_if_needed. destruct (new_view s) as [nv|]; [|apply adds_refl; reflexivity]. destruct (collect _ _ _) as (vcs, [(x, d)|]).
  - eapply adds_note; [reflexivity|intros m y; discriminate].
  - destruct (new_view_valid _ _ _ _ _); [apply finish_adds|]. eapply adds_note; [reflexivity|intros m y; discriminate].
Qed.
Lemma process_vc_adds m x part s : adds (fun e => forall m' x', e = LVC m' x' -> m' = m /\ x' = x) s (process_view_change me dg nvdg log_size m x part s).
Proof.
  assert (W : forall e, no_vc e -> forall m' x', e = LVC m' x' -> m' = m /\ x' = x) by (intros e N m' x' E; exfalso; exact (N m' x' E)).
  unfold process_view_change. destruct (validate _ _ _); try (apply adds_refl; reflexivity); cbv zeta.
  - set (s1 := note (LVC m x) _).
    assert (E1 : adds (fun e => forall m' x', e = LVC m' x' -> m' = m /\ x' = x) s s1) by (eapply adds_note; [reflexivity|intros m' x' E; injection E as -> ->; auto]).
    clearbody s1. eapply adds_trans; [exact E1|]. apply (adds_weaken no_vc); [exact W|]. destruct (is_primary me s1); [apply sender_adds|].
    eapply adds_trans; [|apply finisher_adds]. eapply adds_note; [reflexivity|intros m' y; discriminate].
  - apply (adds_weaken no_vc); [exact W|]. set (s1 := note (LStashed _ x) _). assert (E1 : adds no_vc s s1) by (eapply adds_note; [reflexivity|intros m' y; discriminate]). clearbody s1.
    destruct (_ && _); [|exact E1]. eapply adds_trans; [exact E1|]. eapply adds_note; [reflexivity|intros m' y; discriminate].
Qed.

(** *** views *)
Fixpoint asks_ok (v : nat) (asks : list (option nat * nat)) : Prop :=
  match asks with
  | [] => True
  | (Some w, _) :: rest => v < w /\ asks_ok w rest
  | (None, _) :: rest => asks_ok (S v) rest
  end.
Lemma need_view asks : forall s, asks_ok (view (data s)) asks -> asks <> [] ->
  view (data s) < view (data (need_view_change me asks s)).
Proof.
  induction asks as [|(w, p) asks IH]; intros s O N; [contradiction|]. cbn [need_view_change]. cbv zeta.
  set (v := match w with Some v => v | None => view (data s) + 1 end).
  assert (V : view (data s) < v /\ asks_ok v asks).
  { unfold v. destruct w as [w|]; cbn in O; [exact O|]. rewrite Nat.add_1_r. auto. }
  set (s1 := note (LStart v p) _). assert (V1 : view (data s1) = v) by reflexivity. clearbody s1.
  set (s2 := match primary (data s) with Some old => _ | None => s1 end).
  assert (V2 : v <= view (data s2)).
  { unfold s2. destruct (primary (data s)) as [old|]; [|lia]. destruct (old =? p); [|lia]. destruct asks as [|a asks]; [simpl; lia|].
    apply Nat.lt_le_incl. rewrite <- V1. apply (IH (propose s1)); [cbn; rewrite V1; apply V|discriminate]. }
  clearbody s2. unfold build. simpl. lia.
Qed.
Definition op_ok (o : op) (s : state) : Prop :=
  match o with
  | ONeed asks => asks_ok (view (data s)) asks
  | OCatchup (Some v) _ => view (data s) <= v
  | _ => True
  end.
Definition same_view (s s' : state) : Prop := view (data s') = view (data s).
Lemma finish_view s : same_view s (finish s).
Proof. unfold finish, same_view. cbv zeta. destruct (new_view _); reflexivity. Qed.
Lemma sender_view s : same_view s (send_new_view_if_needed me dg nvdg log_size s).
Proof.
  unfold send_new_view_if_needed, same_view. cbv zeta. destruct (is_reached _ _); [|reflexivity]. destruct (calc_checkpoint _ _) as [cp|]; [|reflexivity].
  destruct (calc_batches _ _ _ _) as [bs|]; [|reflexivity]. destruct (cp_mem _ _); [|reflexivity]. rewrite finish_view. reflexivity.
Qed.
Lemma finisher_view s : same_view s (finish_if_needed dg log_size s).
Proof.
  unfold finish_if_needed, same_view. destruct (new_view s) as [nv|]; [|reflexivity]. destruct (collect _ _ _) as (vcs, [(x, d)|]); [reflexivity|].
  destruct (new_view_valid _ _ _ _ _); [apply finish_view|reflexivity].
Qed.
Lemma process_vc_view m x part s : same_view s (process_view_change me dg nvdg log_size m x part s).
Proof.
  unfold process_view_change, same_view. destruct (validate _ _ _); try reflexivity; cbv zeta.
  - destruct (is_primary me _); [rewrite sender_view|rewrite finisher_view]; reflexivity.
  - destruct (_ && _); reflexivity.
Qed.
Lemma process_nv_view nv x part s : same_view s (process_new_view dg nvdg log_size nv x part s).
Proof. unfold process_new_view, same_view. destruct (validate _ _ _); try reflexivity. rewrite finisher_view. reflexivity. Qed.
Lemma other_view o s : (forall asks, o <> ONeed asks) -> (forall v p, o <> OCatchup v p) -> same_view s (step me dg nvdg log_size o s).
Proof.
  intros N C. destruct o as [asks|m x part|v x d y part|nv x part|m x d y part|nv v y part| |st c p pp|n|av p]; cbn [step]; try reflexivity.
  - exfalso. exact (N asks eq_refl).
  - apply process_vc_view.
  - unfold process_ack, same_view. destruct (validate _ _ _); try reflexivity. destruct (is_primary me s); [rewrite sender_view|]; reflexivity.
  - apply process_nv_view.
  - unfold process_vc_reply. destruct (negb _); [reflexivity|]. destruct (negb _); [reflexivity|]. cbv zeta. destruct (_ && _); [reflexivity|].
    unfold same_view. rewrite process_vc_view. reflexivity.
  - unfold process_nv_reply. destruct (negb _); [reflexivity|]. destruct (new_view s); [reflexivity|]. destruct (negb _); [reflexivity|].
    destruct (_ <? _); [reflexivity|]. apply process_nv_view.
  - unfold timeout, same_view. cbv zeta. destruct (new_view _); reflexivity.
  - exfalso. exact (C av p eq_refl).
Qed.
End More.

(** *** what the end of a view change leaves behind *)
Section Cert.
Variables (me : nat) (dg : view_change_msg -> nat) (nvdg : new_view_msg -> nat) (log_size : nat).
(** the last batch which the NewView last accepted takes over, or its checkpoint; the view last completed *)
Definition cert_at (l : list entry) : option nat :=
  fold_left (fun c x => match x with LAccept nv => Some (last (map pp_seq_no (nw_batches nv)) (cp_end (nw_cp nv))) | _ => c end) l None.
Definition completed_at (v0 : nat) (l : list entry) : nat :=
  snd (fold_left (fun vc x => match x with
    | LStart v _ => (v, snd vc) | LCatchup v _ => (v, v) | LAccept _ => (fst vc, fst vc) | _ => vc end) l (v0, v0)).
Lemma cert_snoc l x : cert_at (l ++ [x]) = match x with LAccept nv => Some (last (map pp_seq_no (nw_batches nv)) (cp_end (nw_cp nv))) | _ => cert_at l end.
Proof. unfold cert_at. rewrite fold_left_app. reflexivity. Qed.
Definition pair_at (v0 : nat) (l : list entry) : nat * nat :=
  fold_left (fun vc x => match x with
    | LStart v _ => (v, snd vc) | LCatchup v _ => (v, v) | LAccept _ => (fst vc, fst vc) | _ => vc end) l (v0, v0).
Lemma pair_snoc v0 l x : pair_at v0 (l ++ [x]) = match x with
    | LStart v _ => (v, snd (pair_at v0 l)) | LCatchup v _ => (v, v) | LAccept _ => (fst (pair_at v0 l), fst (pair_at v0 l)) | _ => pair_at v0 l end.
Proof. unfold pair_at. rewrite fold_left_app. reflexivity. Qed.
Lemma cert_is cp bs : prev_view_prepare_cert cp bs = last (map pp_seq_no bs) (cp_end cp).
Proof.
  unfold prev_view_prepare_cert. induction bs as [|b bs _] using rev_ind; [reflexivity|].
  rewrite rev_app_distr, map_app. cbn [map]. rewrite last_last. reflexivity.
Qed.
Variable v0 : nat.
Definition left_ok (s : state) : Prop :=
  prev_cert (data s) = cert_at (log s) /\ pair_at v0 (log s) = (view (data s), last_completed s).
Lemma left_finish s : left_ok s -> left_ok (finish s).
Proof.
  intros (A & B). unfold finish, left_ok. cbv zeta. destruct (new_view _) as [nv|]; simpl; rewrite cert_snoc, pair_snoc.
  - rewrite cert_is, B. auto.
  - auto.
Qed.
Lemma left_note x s : match x with LStart _ _ | LCatchup _ _ | LAccept _ => False | _ => True end -> left_ok s -> left_ok (note x s).
Proof. intros N (A & B). unfold left_ok. simpl. rewrite cert_snoc, pair_snoc. destruct x; try contradiction; auto. Qed.
Lemma left_sender s : left_ok s -> left_ok (send_new_view_if_needed me dg nvdg log_size s).
Proof.
  intros L. unfold send_new_view_if_needed. cbv zeta. destruct (is_reached _ _); [|exact L]. destruct (calc_checkpoint _ _) as [cp|]; [|exact L].
  destruct (calc_batches _ _ _ _) as [bs|]; [|exact L]. destruct (cp_mem _ _); [|exact L]. apply left_finish.
  match goal with |- context [LSentNV ?n] => apply (left_note (LSentNV n)) in L; [exact L|exact I] end.
Qed.
Lemma left_finisher s : left_ok s -> left_ok (finish_if_needed dg log_size s).
Proof.
  intros L. unfold finish_if_needed. destruct (new_view s) as [nv|]; [|exact L]. destruct (collect _ _ _) as (vcs, [(x, d)|]).
  - unfold request_vc. apply (left_note (LReqVC x d)) in L; [exact L|exact I].
  - destruct (new_view_valid _ _ _ _ _); [apply left_finish, L|]. apply (left_note LPropose); [exact I|exact L].
Qed.
Lemma left_vc m x part s : left_ok s -> left_ok (process_view_change me dg nvdg log_size m x part s).
Proof.
  intros L. unfold process_view_change. destruct (validate _ _ _); try exact L; cbv zeta.
  - apply (left_note (LVC m x)) in L; [|exact I]. destruct (is_primary me _); [apply left_sender; exact L|].
    apply left_finisher. apply left_note; [exact I|exact L].
  - apply (left_note (LStashed (vc_view m) x)) in L; [|exact I]. destruct (_ && _); [apply left_note; [exact I|exact L]|exact L].
Qed.
Lemma left_nv nv x part s : left_ok s -> left_ok (process_new_view dg nvdg log_size nv x part s).
Proof.
  intros L. unfold process_new_view. destruct (validate _ _ _); try exact L. apply left_finisher.
  apply (left_note (LNV nv x)) in L; [exact L|exact I].
Qed.
Lemma left_need asks : forall s, left_ok s -> left_ok (need_view_change me asks s).
Proof.
  induction asks as [|(w, p) asks IH]; intros s L; [exact L|]. cbn [need_view_change]. cbv zeta.
  set (v := match w with Some v => v | None => _ end). set (s1 := note (LStart v p) _).
  assert (L1 : left_ok s1) by (destruct L as (A & B); split; simpl; [rewrite cert_snoc; exact A|rewrite pair_snoc, B; reflexivity]).
  set (s2 := match primary (data s) with Some old => if old =? p then _ else s1 | None => s1 end).
  assert (L2 : left_ok s2) by (unfold s2; destruct (primary (data s)) as [old|]; [destruct (old =? p); [apply IH, (left_note LPropose); [exact I|exact L1]|exact L1]|exact L1]).
  clearbody s2. unfold build. match goal with |- context [LSentVC ?m ?d] => apply (left_note (LSentVC m d)) in L2; [exact L2|exact I] end.
Qed.
Lemma left_step o s : left_ok s -> left_ok (step me dg nvdg log_size o s).
Proof.
  intros L. destruct o as [asks|m x part|v x d y part|nv x part|m x d y part|nv v y part| |st c p pp|n|av p]; cbn [step].
  - apply left_need, L.
  - apply left_vc, L.
  - unfold process_ack. destruct (validate _ _ _); try exact L. destruct (is_primary me s); [|exact L]. apply left_sender. apply (left_note (LAck x d y)) in L; [exact L|exact I].
  - apply left_nv, L.
  - unfold process_vc_reply. destruct (negb _); [exact L|]. destruct (negb _); [exact L|]. cbv zeta. apply (left_note (LRepVC x d y)) in L; [|exact I].
    destruct (_ && _); [exact L|]. apply left_vc. exact L.
  - unfold process_nv_reply. destruct (negb _); [exact L|]. destruct (new_view s); [exact L|]. destruct (negb _); [exact L|].
    destruct (_ <? _); [exact L|]. apply left_nv, L.
  - unfold timeout. cbv zeta. apply (left_note LPropose) in L; [|exact I]. destruct (new_view _); [exact L|]. unfold request_nv. apply (left_note (LReqNV (view (data (propose s))))) in L; [exact L|exact I].
  - exact L.
  - apply (left_note (LPool n)) in L; [exact L|exact I].
  - destruct L as (A & B). split; simpl; [rewrite cert_snoc; exact A|rewrite pair_snoc; reflexivity].
Qed.
End Cert.

(** ** Theorems *)
Section Theorems.
Variables (me : nat) (dg : view_change_msg -> nat) (nvdg : new_view_msg -> nat) (log_size : nat).
Variables (v0 n0 p0 : nat).
Notation R ops := (run me dg nvdg log_size ops (init v0 n0 p0)).
Notation step := (step me dg nvdg log_size).
Notation view_at := (view_at v0). Notation pool_at := (pool_at n0). Notation primary_at := (primary_at p0).

(** the history says where the replica is *)
Theorem C27_state : forall ops, let s := R ops in
  view (data s) = view_at (log s) /\ waiting (data s) = waiting_at (log s) /\
  primary (data s) = Some (primary_at (log s)) /\ nodes (data s) = pool_at (log s).
Proof. intros ops s. destruct (i_mid _ _ _ _ _ _ _ s (run_inv me dg nvdg log_size v0 n0 p0 ops)) as [A B C D _ _ _ _]. auto. Qed.

(** C27: messages, replies, timeouts and changes of the pool leave the view alone; a view change which
    is asked for a higher view (as C26 and C46 say of those who ask) raises it; catch-up does not lower it
    unless the audit ledger ends with a batch of an older view *)
Theorem C27_view_partial : forall o s,
  (op_ok o s -> view (data s) <= view (data (step o s))) /\
  (forall asks, o = ONeed asks -> asks <> [] -> op_ok o s -> view (data s) < view (data (step o s))) /\
  ((forall asks, o <> ONeed asks) -> (forall v p, o <> OCatchup v p) -> view (data (step o s)) = view (data s)).
Proof.
  intros o s. refine (conj _ (conj _ _)).
  - intros O. destruct o as [asks| | | | | | | | |av p]; try (rewrite other_view; [apply le_n|intros; discriminate|intros; discriminate]).
    + destruct asks as [|a asks]; [apply le_n|]. apply Nat.lt_le_incl, need_view; [exact O|discriminate].
    + cbn. destruct av as [v|]; [exact O|apply le_n].
  - intros asks -> N O. apply need_view; assumption.
  - intros A B. apply other_view; assumption.
Qed.

(** C46: a replica asks for a view change to a future view only after it has put aside [n-f] ViewChange
    messages for that view (not of [n-f] nodes: see [C46_refuted]) *)
Theorem C46_asked_partial : forall ops l1 v l2, log (R ops) = l1 ++ LAsk v :: l2 ->
  view_at l1 < v /\ waiting_at l1 = false /\ pool_at l1 - getMaxFailures (pool_at l1) <= stash_count v l1.
Proof. intros ops l1 v l2 E. exact (i_log _ _ _ _ _ _ _ _ (i_mid _ _ _ _ _ _ _ _ (run_inv me dg nvdg log_size v0 n0 p0 ops)) l1 _ l2 E). Qed.

(** C47: what the NewView of a primary rests on *)
Theorem C47_new_view : forall ops l1 nv l2, log (R ops) = l1 ++ LSentNV nv :: l2 ->
  primary_at l1 = me /\ waiting_at l1 = true /\ nw_view nv = view_at l1 /\ nw_primary nv = None /\
  NoDup (map fst (nw_vcs nv)) /\
  pool_at l1 - getMaxFailures (pool_at l1) <= length (nw_vcs nv) /\
  (forall x d, In (x, d) (nw_vcs nv) <-> confirmed me dg n0 l1 x d) /\
  exists order ms, Permutation order (nw_vcs nv) /\ listed me dg l1 order ms /\
    calc_checkpoint (Quorums (pool_at l1)) ms = Some (nw_cp nv) /\
    calc_batches (Quorums (pool_at l1)) log_size (nw_cp nv) ms = Some (nw_batches nv).
Proof. intros ops l1 nv l2 E. exact (i_log _ _ _ _ _ _ _ _ (i_mid _ _ _ _ _ _ _ _ (run_inv me dg nvdg log_size v0 n0 p0 ops)) l1 _ l2 E). Qed.

Lemma not_waiting l2 : forall w, (forall v p, ~ In (LStart v p) l2) ->
  w = false -> fold_left (fun w x => match x with LStart _ _ => true | LAccept _ | LError => false | _ => w end) l2 w = false.
Proof.
  induction l2 as [|x l2 IH]; intros w N W; simpl; [exact W|]. apply IH; [intros v p J; apply (N v p); right; exact J|].
  destruct x; try exact W; try reflexivity. exfalso. exact (N v p (or_introl eq_refl)).
Qed.
Lemma done_not_waiting l1 e l2 : ends e = true -> waiting_at (l1 ++ e :: l2) = true -> exists v p, In (LStart v p) l2.
Proof.
  intros E W. assert (D : (exists v p, In (LStart v p) l2) \/ forall v p, ~ In (LStart v p) l2).
  { clear. induction l2 as [|x l2 IH]; [right; intros v p []|]. destruct (is_start x) eqn:S0.
    - destruct x; try discriminate. left. exists v, p. left. reflexivity.
    - destruct IH as [(v & p & I)|N]; [left; exists v, p; right; exact I|]. right. intros v p [->|I]; [discriminate|exact (N v p I)]. }
  destruct D as [D|N]; [exact D|]. exfalso. unfold waiting_at in W. rewrite fold_left_app in W. cbn [fold_left] in W.
  rewrite not_waiting in W; [discriminate|exact N|]. destruct e; try discriminate; reflexivity.
Qed.
(** one NewView per view change *)
Theorem C47_once : forall ops l1 nv l2 nv' l3, log (R ops) = l1 ++ LSentNV nv :: l2 ++ LSentNV nv' :: l3 ->
  exists v p, In (LStart v p) l2.
Proof.
  intros ops l1 nv l2 nv' l3 E. destruct (run_good me dg nvdg log_size v0 n0 p0 ops l1 nv _ E) as (e & l4 & F & X).
  destruct l2 as [|y l2]; [injection F as <- _; discriminate|]. injection F as -> F.
  assert (E' : log (R ops) = (l1 ++ LSentNV nv :: e :: l2) ++ LSentNV nv' :: l3) by (rewrite E, <- app_assoc; reflexivity).
  apply C47_new_view in E' as (_ & W & _).
  assert (A : l1 ++ LSentNV nv :: e :: l2 = (l1 ++ [LSentNV nv]) ++ e :: l2) by (rewrite <- app_assoc; reflexivity). rewrite A in W.
  destruct (done_not_waiting _ _ _ X W) as (v & p & I). exists v, p. right. exact I.
Qed.
(** it is sent as soon as the confirmed votes allow it and the primary has the checkpoint itself *)
Theorem C47_sends : forall ops o e, let s := R ops in
  primary_at (log s) = me -> waiting_at (log s) = true ->
  (exists m x, o = OVC m x true /\ vc_view m = view_at (log s) /\ e = LVC m x) \/
  (exists x d y, o = OAck (view_at (log s)) x d y true /\ e = LAck x d y) ->
  let l := log s ++ [e] in
  exists order ms, NoDup (map fst order) /\ (forall x d, In (x, d) order <-> confirmed me dg n0 l x d) /\ listed me dg l order ms /\
  (pool_at l - getMaxFailures (pool_at l) <= length order -> forall cp bs,
   calc_checkpoint (Quorums (pool_at l)) ms = Some cp -> calc_batches (Quorums (pool_at l)) log_size cp ms = Some bs -> In cp (cps (data s)) ->
   exists vcs r, Permutation order vcs /\ log (step o s) = l ++ [LSentNV (NewView (view_at l) vcs cp bs None); r] /\ ends r = true).
Proof.
  intros ops o e s P W O l. assert (Iv : inv me dg nvdg log_size v0 n0 p0 s) by apply run_inv. clearbody s.
  destruct O as [(m & x & -> & V & ->)|(x & d & y & -> & ->)]; cbn [ViewChange_Model.step]; unfold process_view_change, process_ack.
  - rewrite (validate_current me dg nvdg log_size v0 n0 p0 (vc_view m) s Iv V W). cbv zeta. set (s1 := note (LVC m x) _).
    assert (I1 : inv me dg nvdg log_size v0 n0 p0 s1) by (apply inv_vc; assumption || reflexivity).
    rewrite (is_primary_iff me dg nvdg log_size v0 n0 p0 s1 (i_mid _ _ _ _ _ _ _ _ I1)).
    change (log s1) with l. assert (P1 : primary_at l = me) by (unfold l; rewrite primary_snoc; exact P). rewrite P1, Nat.eqb_refl.
    exact (sender_log me dg nvdg log_size v0 n0 p0 s1 I1).
  - rewrite (validate_current me dg nvdg log_size v0 n0 p0 _ s Iv eq_refl W).
    rewrite (is_primary_iff me dg nvdg log_size v0 n0 p0 s (i_mid _ _ _ _ _ _ _ _ Iv)), P, Nat.eqb_refl. set (s1 := note (LAck x d y) _).
    assert (I1 : inv me dg nvdg log_size v0 n0 p0 s1) by (apply inv_ack; assumption || reflexivity).
    exact (sender_log me dg nvdg log_size v0 n0 p0 s1 I1).
Qed.

(** C48: what a replica accepts *)
Theorem C48_accepted : forall ops l1 nv l2, log (R ops) = l1 ++ LAccept nv :: l2 ->
  waiting_at l1 = true /\ (direct me nvdg p0 l1 nv \/ quorumed me nvdg n0 l1 nv) /\
  (checked me dg log_size n0 l1 nv \/ exists own l0, l1 = l0 ++ [LSentNV own]).
Proof. intros ops l1 nv l2 E. exact (i_log _ _ _ _ _ _ _ _ (i_mid _ _ _ _ _ _ _ _ (run_inv me dg nvdg log_size v0 n0 p0 ops)) l1 _ l2 E). Qed.
Theorem C48_once : forall ops l1 nv l2 nv' l3, log (R ops) = l1 ++ LAccept nv :: l2 ++ LAccept nv' :: l3 ->
  exists v p, In (LStart v p) l2.
Proof.
  intros ops l1 nv l2 nv' l3 E. assert (E' : log (R ops) = (l1 ++ LAccept nv :: l2) ++ LAccept nv' :: l3) by (rewrite E, <- app_assoc; reflexivity).
  apply C48_accepted in E' as (W & _). exact (done_not_waiting l1 (LAccept nv) l2 eq_refl W).
Qed.
Lemma recent_split l e : In e (recent l) -> exists a b, l = a ++ e :: b /\ forall v p, ~ In (LStart v p) b.
Proof.
  induction l as [|x l IH] using rev_ind; [intros []|]. unfold recent. rewrite fold_left_app. cbn [fold_left].
  change (fold_left _ l []) with (recent l). intros I. destruct (is_start x) eqn:S0; [destruct x; try discriminate; destruct I|].
  assert (J : In e (recent l) \/ e = x) by (destruct x; try discriminate; apply in_app_iff in I as [I|[I|[]]]; auto).
  destruct J as [J| ->].
  - destruct (IH J) as (a & b & -> & N). exists a, (b ++ [x]). split; [rewrite <- app_assoc; reflexivity|]. intros v p K. apply in_app_iff in K as [K|[K|[]]]; [exact (N v p K)|subst; discriminate].
  - exists l, []. split; [reflexivity|]. intros v p [].
Qed.
Lemma view_same a b : (forall v p, ~ In (LStart v p) b) -> (forall v p, ~ In (LCatchup v p) b) -> view_at (a ++ b) = view_at a.
Proof.
  intros N C. induction b as [|x b IH] using rev_ind; [rewrite app_nil_r; reflexivity|]. rewrite app_assoc, view_snoc.
  rewrite IH; [|intros v p I; apply (N v p), in_app_iff; left; exact I|intros v p I; apply (C v p), in_app_iff; left; exact I].
  destruct x; try reflexivity; exfalso; [apply (N v p)|apply (C v p)]; apply in_app_iff; right; left; reflexivity.
Qed.
(** without a catch-up since the view change began it is a NewView of the replica's view *)
Theorem C48_view : forall ops l1 nv l2, log (R ops) = l1 ++ LAccept nv :: l2 ->
  (forall v p, ~ In (LCatchup v p) (recent l1)) -> nw_view nv = view_at l1.
Proof.
  intros ops l1 nv l2 E C. pose proof (C48_accepted ops l1 nv l2 E) as (_ & Src & _).
  assert (Sx : exists y, sent_nv me l1 nv y).
  { destruct Src as [(H & _)|(a & b & ys & -> & N & _ & _ & (y & H) & _)]; [exists (primary_at l1); exact H|]. exists y.
    unfold sent_nv, recent in *. rewrite fold_left_app. destruct H as [H|(-> & H)]; [left|right; split; [reflexivity|]]; apply fold_recent_sub; assumption. }
  destruct Sx as (y & Sx).
  assert (X : exists e a b, l1 = a ++ e :: b /\ (forall v p, ~ In (LStart v p) b) /\ In e (recent l1) /\ (e = LNV nv y \/ e = LSentNV nv)).
  { destruct Sx as [H|(_ & H)]; destruct (recent_split _ _ H) as (a & b & E1 & N); [exists (LNV nv y)|exists (LSentNV nv)]; exists a, b; auto. }
  destruct X as (e & a & b & E1 & N & Ie & He).
  assert (Cb : forall v p, ~ In (LCatchup v p) (e :: b)).
  { intros v p [I|I]; [destruct He as [-> | ->]; discriminate|]. apply (C v p). rewrite E1. unfold recent. rewrite fold_left_app. cbn [fold_left].
    clear -I N. revert I. set (r := match e with LStart _ _ => [] | _ => _ end). clearbody r. revert r. induction b as [|x b IH]; [intros r []|]. intros r [->|I]; simpl.
    - apply fold_recent_sub; [intros v' p' J; apply (N v' p'); right; exact J|]. apply in_app_iff. right. left. reflexivity.
    - apply IH; [intros v' p' J; apply (N v' p'); right; exact J|exact I]. }
  assert (Nb : forall v p, ~ In (LStart v p) (e :: b)) by (intros v p [I|I]; [destruct He as [-> | ->]; discriminate|exact (N v p I)]).
  rewrite E1, (view_same a (e :: b) Nb Cb). assert (E2 : log (R ops) = a ++ e :: (b ++ LAccept nv :: l2)) by (rewrite E, E1, <- app_assoc; reflexivity).
  pose proof (i_log _ _ _ _ _ _ _ _ (i_mid _ _ _ _ _ _ _ _ (run_inv me dg nvdg log_size v0 n0 p0 ops)) a e _ E2) as Ok.
  destruct He as [-> | ->]; cbn in Ok; apply Ok.
Qed.
(** a replica other than the primary that first got another ViewChange from [x] than the one listed never accepts the NewView:
    [x] can keep it out of the view by sending different messages *)
Theorem C48_equivocation : forall ops l1 nv l2 x d m, log (R ops) = l1 ++ LAccept nv :: l2 ->
  primary_at l1 <> me -> In (x, d) (nw_vcs nv) -> vc_of me l1 x = Some m -> dg m = d.
Proof.
  intros ops l1 nv l2 x d m E P I V. destruct (C48_accepted ops l1 nv l2 E) as (_ & _ & [(ms & L & _)|(own & l0 & ->)]).
  - clear -L I V. induction L as [|(y, e) m' vcs ms (H1 & H2) L IH]; [destruct I|]. destruct I as [I|I]; [injection I as -> ->; simpl in *; congruence|auto].
  - exfalso. apply P. assert (E' : log (R ops) = l0 ++ LSentNV own :: LAccept nv :: l2) by (rewrite E, <- app_assoc; reflexivity).
    apply C47_new_view in E' as (Q & _). rewrite primary_snoc. exact Q.
Qed.
(** a replica which got one NewView, from the primary, and all the ViewChanges it lists, accepts it if it checks, votes
    for the next view if it does not, and asks for a missing ViewChange otherwise *)
Theorem C48_finishes : forall ops o l nv, let s := R ops in
  primary_at (log s) <> me -> waiting_at (log s) = true ->
  (exists m x, o = OVC m x true /\ vc_view m = view_at (log s) /\ l = log s ++ [LVC m x; LSentAck x (dg m)]) \/
  (exists nv' x, o = ONV nv' x true /\ nw_view nv' = view_at (log s) /\ l = log s ++ [LNV nv' x]) ->
  sent_nv me l nv (primary_at (log s)) -> nw_primary nv = None ->
  (forall nv' y, sent_nv me l nv' y -> nv' = nv /\ y = primary_at (log s)) ->
  exists e, log (step o s) = l ++ [e] /\
   ((exists x d, e = LReqVC x d /\ In (x, d) (nw_vcs nv) /\ forall m, vc_of me l x = Some m -> dg m <> d) \/
    ((forall x d, In (x, d) (nw_vcs nv) -> exists m, vc_of me l x = Some m /\ dg m = d) /\
     ((checked me dg log_size n0 l nv /\ e = LAccept nv) \/ (~ checked me dg log_size n0 l nv /\ e = LPropose)))).
Proof.
  intros ops o l nv s P W O S1 S2 S3. assert (Iv : inv me dg nvdg log_size v0 n0 p0 s) by apply run_inv. clearbody s.
  destruct O as [(m & x & -> & V & ->)|(nv' & x & -> & V & ->)]; cbn [ViewChange_Model.step]; unfold process_view_change, process_new_view.
  - rewrite (validate_current me dg nvdg log_size v0 n0 p0 (vc_view m) s Iv V W). cbv zeta. set (s1 := note (LVC m x) _).
    assert (I1 : inv me dg nvdg log_size v0 n0 p0 s1) by (apply inv_vc; assumption || reflexivity).
    assert (P1 : primary_at (log s1) = primary_at (log s)) by (unfold s1; simpl; rewrite primary_snoc; reflexivity).
    rewrite (is_primary_iff me dg nvdg log_size v0 n0 p0 s1 (i_mid _ _ _ _ _ _ _ _ I1)).
    destruct (Nat.eqb_spec (primary_at (log s1)) me) as [X|_]; [congruence|].
    set (s2 := note (LSentAck x (dg m)) s1).
    assert (L2 : log s2 = log s ++ [LVC m x; LSentAck x (dg m)]) by (unfold s2, s1; simpl; rewrite <- app_assoc; reflexivity). rewrite <- L2 in *.
    assert (I2 : inv me dg nvdg log_size v0 n0 p0 s2).
    { apply inv_note; [reflexivity|intros; discriminate| |exact I1]. split; [intros X; apply P; rewrite <- P1; exact X|]. exists m. split; [reflexivity|]. unfold s1. cbn [log note set_votes]. apply (proj2 (recent_in _ (LVC m x) _ eq_refl)). right. reflexivity. }
    assert (P2 : primary_at (log s2) = primary_at (log s)) by (unfold s2; simpl; rewrite primary_snoc; exact P1).
    apply (finisher_log me dg nvdg log_size v0 n0 p0 s2 nv I2). split; [rewrite P2; exact S1|]. split; [exact S2|]. rewrite P2. exact S3.
  - rewrite (validate_current me dg nvdg log_size v0 n0 p0 (nw_view nv') s Iv V W). set (s1 := note (LNV nv' x) _).
    assert (I1 : inv me dg nvdg log_size v0 n0 p0 s1) by (apply inv_nv; assumption || reflexivity).
    assert (L1 : log s1 = log s ++ [LNV nv' x]) by reflexivity. rewrite <- L1 in *.
    assert (P1 : primary_at (log s1) = primary_at (log s)) by (rewrite L1, primary_snoc; reflexivity).
    apply (finisher_log me dg nvdg log_size v0 n0 p0 s1 nv I1). split; [rewrite P1; exact S1|]. split; [exact S2|]. rewrite P1. exact S3.
Qed.

(** what an accepted NewView leaves behind: the last sequence number which comes from earlier views (PrePrepares up to it are those
    it lists), and the view last completed, which catch-up sets too *)
Theorem C48_left : forall ops, let s := R ops in
  prev_cert (data s) = cert_at (log s) /\ last_completed s = completed_at v0 (log s).
Proof.
  intros ops s. assert (L : left_ok v0 s).
  { unfold s, run. assert (L : left_ok v0 (init v0 n0 p0)) by (split; reflexivity). revert L. generalize (init v0 n0 p0) as i. clear s.
    induction ops as [|o ops IH]; intros i L; [exact L|]. simpl. apply IH, left_step, L. }
  destruct L as (A & B). split; [exact A|]. unfold completed_at. fold (pair_at v0 (log s)). rewrite B. reflexivity.
Qed.
(** no NewView in time: a vote for the next view, and the NewView is asked for unless one is at hand *)
Theorem C48_timeout : forall ops, let s := R ops in
  log (step OTimeout s) = log s ++ LPropose :: match new_view s with Some _ => [] | None => [LReqNV (view_at (log s))] end.
Proof.
  intros ops s. destruct (C27_state ops) as (V & _). fold s in V. cbn [ViewChange_Model.step]. unfold timeout, propose. cbv zeta.
  change (new_view (note LPropose s)) with (new_view s). destruct (new_view s); [reflexivity|].
  unfold request_nv. cbn [log note set_requests data]. rewrite V, <- app_assoc. reflexivity.
Qed.
(** a NewView in reply counts as sent by the replier, only if it was asked for, is of the view asked for, and no NewView is at hand *)
Theorem C48_reply : forall ops nv v y part, let s := R ops in
  log (step (ORepNV nv v y part) s) <> log s ->
  nw_view nv = v /\ new_view s = None /\ In (LReqNV v) (recent (log s)) /\ exists ext, log (step (ORepNV nv v y part) s) = log s ++ LNV nv y :: ext.
Proof.
  intros ops nv v y part s D. assert (Iv : inv me dg nvdg log_size v0 n0 p0 s) by apply run_inv. clearbody s.
  revert D. cbn [ViewChange_Model.step]. unfold process_nv_reply. destruct (Nat.eqb_spec (nw_view nv) v) as [Ev|N]; cbn [negb]; [|intros D; congruence].
  destruct (new_view s); [intros D; congruence|]. destruct (existsb _ (requested_nv s)) eqn:Q; cbn [negb]; [|intros D; congruence].
  destruct (_ <? _); [intros D; congruence|]. unfold process_new_view. destruct (validate _ _ _) eqn:Va; try (intros D; congruence). intros _.
  split; [exact Ev|]. split; [reflexivity|]. split.
  - apply existsb_exists in Q as (w & Q1 & Q2). apply Nat.eqb_eq in Q2. subst w. rewrite <- Ev. apply (i_requests _ _ _ _ _ _ _ _ Iv), Q1.
  - set (s1 := note (LNV nv y) _). assert (E : exists ext, log (finish_if_needed dg log_size s1) = log s1 ++ ext).
    { unfold finish_if_needed. destruct (new_view s1) as [nv'|]; [|exists []; rewrite app_nil_r; reflexivity].
      destruct (collect _ _ _) as (vcs, [(x, d)|]); [exists [LReqVC x d]; reflexivity|]. destruct (new_view_valid _ _ _ _ _); [|exists [LPropose]; reflexivity].
      destruct (finish_log s1) as (e & W & _). exists [e]. exact W. }
    destruct E as (ext & E). exists ext. rewrite E. unfold s1. cbn [log note set_new_views]. rewrite <- app_assoc. reflexivity.
Qed.

(** C49: what a ViewChange message reports *)
Theorem C49_reports : forall ops l1 m d l2, log (R ops) = l1 ++ LSentVC m d :: l2 ->
  vc_view m = view_at l1 /\ vc_stable m = stable d /\ vc_checkpoints m = cps d /\ reports l1 m d.
Proof. intros ops l1 m d l2 E. exact (i_log _ _ _ _ _ _ _ _ (i_mid _ _ _ _ _ _ _ _ (run_inv me dg nvdg log_size v0 n0 p0 ops)) l1 _ l2 E). Qed.
(** a view change begins with such a message, of the data the replica has then *)
Theorem C49_sent : forall s w p, primary (data s) <> Some p ->
  let v := match w with Some v => v | None => S (view (data s)) end in
  exists m d, log (step (ONeed [(w, p)]) s) = log s ++ [LStart v p; LSentVC m d] /\ vc_view m = v /\
    stable d = stable (data s) /\ cps d = cps (data s) /\ prepared d = prepared (data s) /\ preprepared d = preprepared (data s).
Proof.
  intros s w p N v. cbn [ViewChange_Model.step need_view_change]. cbv zeta.
  assert (E : match w with Some v => v | None => view (data s) + 1 end = v) by (destruct w; [reflexivity|apply Nat.add_1_r]). rewrite E.
  assert (D : match primary (data s) with Some old => old =? p | None => false end = false).
  { destruct (primary (data s)) as [old|]; [|reflexivity]. apply Nat.eqb_neq. congruence. }
  destruct (primary (data s)) as [old|]; [rewrite D|]; unfold build; cbn [log set_stashed set_votes note set_requests set_old set_data data];
    rewrite <- app_assoc; do 2 eexists; (split; [reflexivity|]); repeat (split; [reflexivity|]); reflexivity.
Qed.

(** C43: a ViewChange taken from replies as that of [x] was requested with that digest, and came from [x] or from [f+1] nodes *)
Theorem C43_reply : forall ops m x d y part ext m' x', let s := R ops in
  log (step (ORepVC m x d y part) s) = log s ++ ext -> In (LVC m' x') ext ->
  m' = m /\ x' = x /\ dg m = d /\ In (LReqVC x d) (recent (log s)) /\
  (y = x \/ exists ys, NoDup ys /\ getMaxFailures (pool_at (log s)) + 1 <= length ys /\
     forall z, In z ys -> z = y \/ In (LRepVC x d z) (recent (log s))).
Proof.
  intros ops m x d y part ext m' x' s E I. assert (Iv : inv me dg nvdg log_size v0 n0 p0 s) by apply run_inv. clearbody s.
  cbn [ViewChange_Model.step] in E. unfold process_vc_reply in E.
  assert (Nil : log s = log s ++ ext -> False) by (intros X; rewrite <- (app_nil_r (log s)) in X at 1; apply app_inv_head in X; subst ext; destruct I).
  destruct (Nat.eqb_spec (dg m) d) as [Ed|Ne]; cbn [negb] in E; [|exfalso; exact (Nil E)].
  destruct (existsb (pair_eqb (x, d)) (requested_vc s)) eqn:Q; cbn [negb] in E; [|exfalso; exact (Nil E)].
  assert (Rq : In (LReqVC x d) (recent (log s))).
  { apply existsb_exists in Q as (e & Q1 & Q2). apply pair_eqb_eq in Q2 as <-. apply (proj1 (i_requests _ _ _ _ _ _ _ _ Iv)), Q1. }
  set (rc := if existsb (fun e => pair_eqb (fst e) (x, d) && (snd e =? y)) (received_vc s) then received_vc s else received_vc s ++ [(x, d, y)]) in *.
  cbv zeta in E. set (s1 := note (LRepVC x d y) _) in E.
  destruct (negb (is_reached (weak (quorums_of s1)) (length (filter (fun e => pair_eqb (fst e) (x, d)) rc))) && negb (y =? x)) eqn:G.
  { exfalso. apply app_inv_head in E. subst ext. destruct I as [I|[]]; discriminate. }
  set (s2 := set_requests _ rc _ s1) in E. destruct (process_vc_adds me dg nvdg log_size m x part s2) as (e & E1 & F).
  rewrite E1 in E. change (log s2) with (log s ++ [LRepVC x d y]) in E. rewrite <- app_assoc in E. apply app_inv_head in E. subst ext.
  destruct I as [I|I]; [discriminate|]. rewrite Forall_forall in F. destruct (F _ I m' x' eq_refl) as (-> & ->).
  split; [reflexivity|]. split; [reflexivity|]. split; [exact Ed|]. split; [exact Rq|].
  apply andb_false_iff in G as [G|G]; apply negb_false_iff in G; [|left; apply Nat.eqb_eq, G]. right.
  destruct (reply_vc_pre me dg nvdg log_size v0 n0 p0 m x d y part s Iv Q) as (I1 & _). fold rc in I1. destruct (i_requests _ _ _ _ _ _ _ _ I1) as (_ & M2 & M3 & _).
  cbn [received_vc note set_requests] in M2, M3.
  exists (map snd (filter (fun e => pair_eqb (fst e) (x, d)) rc)). split; [|split].
  - clear -M2. induction rc as [|((a, b), c) rc IH]; simpl; [apply NoDup_nil|]. inversion M2 as [|? ? N1 N2]; subst. destruct (pair_eqb (a, b) (x, d)) eqn:P; simpl; [|auto].
    apply NoDup_cons; [|auto]. intros I. apply in_map_iff in I as (((a', b'), c') & E & I). apply filter_In in I as (I & J). simpl in *.
    apply pair_eqb_eq in P, J. injection P as -> ->. injection J as -> ->. subst. exact (N1 I).
  - rewrite map_length. apply Nat.leb_le in G. rewrite <- (i_nodes _ _ _ _ _ _ _ _ (i_mid _ _ _ _ _ _ _ _ Iv)). exact G.
  - intros z Z. apply in_map_iff in Z as (((a', b'), c') & E & Z). apply filter_In in Z as (Z & J). simpl in *. apply pair_eqb_eq in J. injection J as -> ->. subst c'.
    apply M3 in Z. apply recent_in in Z; [|reflexivity]. destruct Z as [Z|Z]; [right; exact Z|left; injection Z as ->; reflexivity].
Qed.
End Theorems.

(** ** Concrete cases: pools of four *)
(** stand-ins for the digests, different for the messages used here *)
Definition sumb (l : list batch_id) : nat := fold_right (fun b n => pp_digest b + n) 0 l.
Definition dgx (m : view_change_msg) : nat :=
  sumb (vc_prepared m) + 2 * sumb (vc_preprepared m) + 5 * length (vc_checkpoints m) + vc_view m.
Definition nvx (nv : new_view_msg) : nat :=
  nw_view nv + 2 * sumb (nw_batches nv) + fold_right (fun xd n => fst xd + snd xd + n) 0 (nw_vcs nv)
  + match nw_primary nv with Some p => S p | None => 0 end.
Definition c0 := Checkpoint 0 0 0 0 5.
Definition b1 := BatchID 0 0 1 11.
Definition own := ViewChange 1 0 [b1] [b1] [c0].
Definition vc2 := ViewChange 1 0 [] [b1] [c0].
Definition nv1 := NewView 1 [(0, dgx own); (1, dgx own); (2, dgx vc2)] c0 [b1] None.

(** node 1, the primary of view 1, gets two ViewChanges and acknowledgements, sends the NewView with the last of them *)
Definition ops_primary := [OData 0 [c0] [b1] [b1]; ONeed [(Some 1, 1)]; OVC own 0 true; OVC vc2 2 true;
  OAck 1 1 (dgx own) 0 true; OAck 1 1 (dgx own) 2 true; OAck 1 0 (dgx own) 2 true].
Example C47_example : exists l,
  log (run 1 dgx nvx 3 (ops_primary ++ [OAck 1 2 (dgx vc2) 0 true]) (init 0 4 0)) = l ++ [LAck 2 (dgx vc2) 0; LSentNV nv1; LAccept nv1] /\
  log (run 1 dgx nvx 3 ops_primary (init 0 4 0)) = l /\ view_at 0 l = 1 /\ primary_at 0 l = 1 /\ waiting_at l = true /\ pool_at 4 l = 4.
Proof. exists (log (run 1 dgx nvx 3 ops_primary (init 0 4 0))). vm_compute. repeat split. Qed.
(** a second view change, back to another primary and again to this one, lets it send another *)
Example C47_once_example : exists l1 nv l2 nv' l3,
  log (run 1 dgx nvx 3 (ops_primary ++ [OAck 1 2 (dgx vc2) 0 true; ONeed [(Some 2, 2)]; ONeed [(Some 5, 1)];
    OVC (ViewChange 5 0 [b1] [b1] [c0]) 0 true; OVC (ViewChange 5 0 [] [b1] [c0]) 2 true; OAck 5 1 (dgx (ViewChange 5 0 [b1] [b1] [c0])) 0 true;
    OAck 5 1 (dgx (ViewChange 5 0 [b1] [b1] [c0])) 2 true; OAck 5 0 (dgx (ViewChange 5 0 [b1] [b1] [c0])) 2 true;
    OAck 5 2 (dgx (ViewChange 5 0 [] [b1] [c0])) 0 true]) (init 0 4 0))
  = l1 ++ LSentNV nv :: l2 ++ LSentNV nv' :: l3.
Proof.
  match goal with |- context [log ?s] => set (l := log s) end.
  exists (firstn 8 l), nv1, (firstn 11 (skipn 9 l)),
    (NewView 5 [(0, dgx (ViewChange 5 0 [b1] [b1] [c0])); (1, dgx (ViewChange 5 0 [b1] [b1] [c0])); (2, dgx (ViewChange 5 0 [] [b1] [c0]))] c0 [b1] None), (skipn 21 l).
  vm_compute. reflexivity.
Qed.
(** node 3 gets the NewView before one of the ViewChanges: it asks for it, and accepts when it comes *)
Definition ops_replica := [OData 0 [c0] [b1] [b1]; ONeed [(Some 1, 1)]; OVC own 1 true; OVC own 0 true].
Example C48_example : exists l,
  log (run 3 dgx nvx 3 ops_replica (init 0 4 0)) = l /\ waiting_at l = true /\ primary_at 0 l = 1 /\
  log (run 3 dgx nvx 3 (ops_replica ++ [ONV nv1 1 true]) (init 0 4 0)) = l ++ [LNV nv1 1; LReqVC 2 (dgx vc2)] /\
  log (run 3 dgx nvx 3 (ops_replica ++ [ONV nv1 1 true; OVC vc2 2 true]) (init 0 4 0))
    = l ++ [LNV nv1 1; LReqVC 2 (dgx vc2); LVC vc2 2; LSentAck 2 (dgx vc2); LAccept nv1].
Proof. exists (log (run 3 dgx nvx 3 ops_replica (init 0 4 0))). vm_compute. repeat split. Qed.
(** replies: nobody but [f+1 = 2] nodes together make it take the missing message *)
Example C43_example : exists l,
  log (run 3 dgx nvx 3 (ops_replica ++ [ONV nv1 1 true; ORepVC vc2 2 (dgx vc2) 0 true]) (init 0 4 0)) = l ++ [LRepVC 2 (dgx vc2) 0] /\
  log (run 3 dgx nvx 3 (ops_replica ++ [ONV nv1 1 true; ORepVC vc2 2 (dgx vc2) 0 true; ORepVC vc2 2 (dgx vc2) 1 true]) (init 0 4 0))
    = l ++ [LRepVC 2 (dgx vc2) 0; LRepVC 2 (dgx vc2) 1; LVC vc2 2; LSentAck 2 (dgx vc2); LAccept nv1].
Proof. exists (log (run 3 dgx nvx 3 (ops_replica ++ [ONV nv1 1 true]) (init 0 4 0))). vm_compute. split; reflexivity. Qed.
(** three nodes are ahead, in view 5 *)
Example C46_example :
  log (run 3 dgx nvx 3 [OVC (ViewChange 5 0 [] [] []) 0 true; OVC (ViewChange 5 0 [] [] []) 1 true; OVC (ViewChange 5 0 [] [] []) 2 true] (init 0 4 0))
  = [LStashed 5 0; LStashed 5 1; LStashed 5 2; LAsk 5].
Proof. vm_compute. reflexivity. Qed.
(** a later ViewChange reports what earlier ones did, and newer batches for the same places *)
Example C49_example : exists l d,
  log (run 3 dgx nvx 3 [OData 0 [c0] [b1] [b1]; ONeed [(Some 1, 1)]; OData 0 [c0] [] [BatchID 1 1 1 12]; ONeed [(None, 2)]] (init 0 4 0))
  = l ++ [LStart 2 2; LSentVC (ViewChange 2 0 [b1] [b1; BatchID 1 1 1 12] [c0]) d] /\ prepared d = [].
Proof. eexists [_; _], _. vm_compute. split; reflexivity. Qed.

(** ** What is false of the code *)
(** C27: catch-up up to a batch of an older view takes the node back to that view (node.py:1838-1840) *)
Theorem C27_catchup_refuted : exists ops o, let s := run 3 dgx nvx 3 ops (init 0 4 0) in
  view (data (step 3 dgx nvx 3 o s)) < view (data s).
Proof. exists [ONeed [(Some 2, 2)]], (OCatchup (Some 1) 1). vm_compute. apply le_n. Qed.
(** C46: one node alone, sending its ViewChange for a future view three times, makes a replica start a view change *)
Theorem C46_refuted : exists ops l v, log (run 3 dgx nvx 3 ops (init 0 4 0)) = l ++ [LAsk v] /\
  forall e, In e l -> exists v', e = LStashed v' 2.
Proof.
  exists (repeat (OVC (ViewChange 5 0 [] [] []) 2 true) 3), (repeat (LStashed 5 2) 3), 5. split; [vm_compute; reflexivity|].
  intros e I. apply repeat_spec in I. exists 5. exact I.
Qed.
(** C47: if another node has sent the primary the very NewView it is about to send, the primary broadcasts it
    and then fails (line 318 reads a message which is not there), no longer waiting and without having applied it *)
Theorem C47_copied_new_view_refuted : exists ops l, let s := run 1 dgx nvx 3 ops (init 0 4 0) in
  log s = l ++ [LSentNV nv1; LError] /\ In (LNV nv1 0) l /\ waiting (data s) = false /\ (forall nv, ~ In (LAccept nv) (log s)).
Proof.
  exists ([OData 0 [c0] [b1] [b1]; ONeed [(Some 1, 1)]; ONV nv1 0 true] ++ skipn 2 ops_primary ++ [OAck 1 2 (dgx vc2) 0 true]).
  eexists [_; _; _; _; _; _; _; _; _]. cbv zeta. split; [vm_compute; reflexivity|]. split; [vm_compute; auto 10|]. split; [reflexivity|].
  intros nv. vm_compute. intros I. repeat (match type of I with _ \/ _ => destruct I as [I|I] end); try discriminate I; exact I.
Qed.
(** C48: a copy of the primary's own NewView, relayed by a faulty node, keeps a replica which has everything from finishing *)
Theorem C48_relayed_refuted : exists ops, let s := run 3 dgx nvx 3 ops (init 0 4 0) in
  sent_nv 3 (log s) nv1 (primary_at 0 (log s)) /\ (forall nv y, sent_nv 3 (log s) nv y -> nv = nv1) /\
  checked 3 dgx 3 4 (log s) nv1 /\ waiting (data s) = true.
Proof.
  exists (ops_replica ++ [OVC vc2 2 true; ONV nv1 0 true; ONV nv1 1 true]). cbv zeta.
  split; [left; vm_compute; auto 20|]. split.
  { intros nv y [I|(_ & I)]; revert I; vm_compute; intros I; repeat (match type of I with _ \/ _ => destruct I as [I|I] end); try discriminate I; try contradiction; injection I as <- _; reflexivity. }
  split; [|vm_compute; reflexivity]. exists [own; own; vc2]. split; [|split; vm_compute; reflexivity].
  repeat (apply Forall2_cons; [split; vm_compute; reflexivity|]). apply Forall2_nil.
Qed.
(** C48: after a catch-up in the middle of a view change the NewView of another view, from what was not the primary then, is accepted *)
Theorem C48_other_view_refuted : exists ops l, let s := run 3 dgx nvx 3 ops (init 0 4 0) in
  log s = l ++ [LAccept nv1] /\ view (data s) = 2 /\ nw_view nv1 = 1.
Proof.
  exists (ops_replica ++ [OVC vc2 2 true; ONV nv1 2 true; OCatchup (Some 2) 2; OVC (ViewChange 2 0 [] [] [c0]) 0 true]).
  eexists [_; _; _; _; _; _; _; _; _; _; _; _]. vm_compute. repeat split.
Qed.
(** C47 and C48: all nodes are correct and every message arrives, yet the NewView of the primary is refused: the list of
    batches depends on the order of the ViewChanges; the primary takes them as they came, the replica by name *)
Definition p102 := BatchID 1 1 11 102. Definition p101 := BatchID 0 0 11 101.
Definition cp10 := Checkpoint 0 0 0 10 7.
Definition vA := ViewChange 2 10 [p101] [p101] [cp10].
Definition vB := ViewChange 2 10 [p102] [p102] [cp10].
Definition vC := ViewChange 2 10 [] [p101] [cp10].
Definition vD := ViewChange 2 10 [] [p102] [cp10].
Theorem C48_correct_primary_refuted : exists ops_p ops_r lp lr nv r,
  log (run 2 dgx nvx 3 ops_p (init 1 4 1)) = lp ++ [LSentNV nv; r] /\
  log (run 3 dgx nvx 3 ops_r (init 1 4 1)) = lr ++ [LNV nv 2; LPropose] /\
  (exists d, In (LSentVC vB d) lp) /\ In (LVC vB 2) lr /\ (exists d, In (LSentVC vC d) lr) /\ In (LVC vC 3) lp /\
  (forall x m, x <> 2 -> x <> 3 -> (In (LVC m x) lp <-> In (LVC m x) lr)).
Proof.
  exists [OData 10 [cp10] [p102] [p102]; ONeed [(Some 2, 2)]; OVC vA 1 true; OVC vC 3 true; OAck 2 2 (dgx vB) 1 true; OAck 2 2 (dgx vB) 3 true;
    OAck 2 1 (dgx vA) 3 true; OAck 2 3 (dgx vC) 1 true; OVC vD 4 true; OAck 2 4 (dgx vD) 1 true].
  set (nv := NewView 2 [(1, dgx vA); (2, dgx vB); (3, dgx vC); (4, dgx vD)] cp10 [p102] None).
  exists [OData 10 [cp10] [] [p101]; ONeed [(Some 2, 2)]; OVC vA 1 true; OVC vB 2 true; OVC vD 4 true; ONV nv 2 true].
  eexists [_; _; _; _; _; _; _; _; _; _], [_; _; _; _; _; _; _; _], nv, _.
  split; [vm_compute; reflexivity|]. split; [vm_compute; reflexivity|].
  split; [eexists; right; left; reflexivity|]. split; [right; right; right; right; left; reflexivity|].
  split; [eexists; right; left; reflexivity|]. split; [right; right; right; left; reflexivity|].
  intros x m N2 N3. split; intros I.
  - destruct I as [I|[I|[I|[I|[I|[I|[I|[I|[I|[I|[]]]]]]]]]]]; try discriminate; injection I as <- <-; try congruence; [right; right; left; reflexivity|do 6 right; left; reflexivity].
  - destruct I as [I|[I|[I|[I|[I|[I|[I|[I|[]]]]]]]]]; try discriminate; injection I as <- <-; try congruence; [right; right; left; reflexivity|do 8 right; left; reflexivity].
Qed.

Print Assumptions C27_state.
Print Assumptions C27_view_partial.
Print Assumptions C27_catchup_refuted.
Print Assumptions C43_reply.
Print Assumptions C46_asked_partial.
Print Assumptions C46_refuted.
Print Assumptions C47_new_view.
Print Assumptions C47_once.
Print Assumptions C47_sends.
Print Assumptions C47_copied_new_view_refuted.
Print Assumptions C48_accepted.
Print Assumptions C48_once.
Print Assumptions C48_view.
Print Assumptions C48_equivocation.
Print Assumptions C48_finishes.
Print Assumptions C48_left.
Print Assumptions C48_timeout.
Print Assumptions C48_reply.
Print Assumptions C48_relayed_refuted.
Print Assumptions C48_other_view_refuted.
Print Assumptions C48_correct_primary_refuted.
Print Assumptions C49_reports.
Print Assumptions C49_sent.
