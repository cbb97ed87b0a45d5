(** C69: messages of the three phases that a replica missed come in by asking, and only as asked. *)
From Coq Require Import List Arith Bool Lia.
From Verif Require Import MsgReq_Model.
From Verif Require Quorum_Model Bls_Model.
Import ListNotations.

(** ** What is meant *)
(** The event ends requests for batch [x]: it is ordered, below the stable checkpoint, or a view
    change started. *)
Definition ends (x : key) (e : event) : Prop :=
  match e with EOrdered y => y = x | EViewChange => True | EStable y => snd x <= snd y | _ => False end.
(** The replica asked for [k] of batch [x], expecting [s], and nothing has ended the request;
    before, there was no such request, or it had ended. *)
Definition asking (inst : nat) (k : kind) (x : key) (s : stash) (es : list event) : Prop :=
  exists es1 es2, es = es1 ++ EMissing inst k x s :: es2 /\ (forall e, In e es2 -> ~ ends x e) /\
    forall s' a b, es1 = a ++ EMissing inst k x s' :: b -> exists e, In e b /\ ends x e.
(** What the message says is what was expected. *)
Definition as_expected (k : kind) (m : message) (s : stash) : Prop :=
  match s with None => True | Some e => k <> KCommit /\ m_data m = e end.
(** The replica's own message of kind [k]. *)
Definition own (me : name) (es : list event) (k : kind) (m : message) : Prop :=
  match k with KPrePrepare => In (ESent m) es | _ => In (EVote k m me) es end.

(** ** Lemmas *)
Lemma key_eqb_iff a b : key_eqb a b = true <-> a = b.
Proof.
  destruct a as [a1 a2], b as [b1 b2]. unfold key_eqb. cbn [fst snd]. rewrite andb_true_iff, !Nat.eqb_eq.
  split; [intros [-> ->]; reflexivity|intros E; injection E as -> ->; auto].
Qed.
Lemma key_eqb_refl a : key_eqb a a = true. Proof. apply key_eqb_iff. reflexivity. Qed.
Lemma kind_eqb_iff a b : kind_eqb a b = true <-> a = b.
Proof. destruct a, b; cbn; split; congruence. Qed.
Lemma same_iff a b : same a b = true <-> a = b.
Proof.
  destruct a as [a1 a2], b as [b1 b2]. unfold same. cbn [fst snd]. rewrite andb_true_iff, kind_eqb_iff, key_eqb_iff.
  split; [intros [-> ->]; reflexivity|intros E; injection E as -> ->; auto].
Qed.
Lemma data_eqb_iff a b : data_eqb a b = true <-> a = b.
Proof.
  destruct a as [[a1 a2] a3], b as [[b1 b2] b3]. unfold data_eqb. cbn [fst snd]. rewrite !andb_true_iff, !Nat.eqb_eq.
  split; [intros [[-> ->] ->]; reflexivity|intros E; injection E as -> -> ->; auto].
Qed.

Lemma run_snoc st es e : run st (es ++ [e]) =
  (fst (step (fst (run st es)) e), snd (run st es) ++ snd (step (fst (run st es)) e)).
Proof. unfold run. rewrite fold_left_app. reflexivity. Qed.

Lemma rget_rdel kk p r : rget kk (rdel p r) = if p kk then None else rget kk r.
Proof.
  induction r as [|(kk', s) r IH]; [destruct (p kk); reflexivity|]. cbn [rdel filter fst].
  destruct (p kk') eqn:P; cbn [negb].
  - fold (rdel p r). rewrite IH. cbn [rget]. destruct (same kk' kk) eqn:E; [|reflexivity].
    apply same_iff in E as ->. rewrite P. reflexivity.
  - cbn [rget]. fold (rdel p r). rewrite IH. destruct (same kk' kk) eqn:E; [|reflexivity].
    apply same_iff in E as ->. rewrite P. reflexivity.
Qed.

Lemma step_consts st e : d_inst (s_data (fst (step st e))) = d_inst (s_data st) /\ d_name (s_data (fst (step st e))) = d_name (s_data st).
Proof.
  destruct e as [inst k x s|k p frm|k p c frm|x| |x|k m voter|m|xs|v l pps]; cbn [step].
  - destruct (negb _); [auto|]. destruct (rget _ _); auto.
  - destruct (validate_message_req _ _); [|auto]. destruct (p_seq p); [|auto]. destruct (get_reply _ _ _); auto.
  - destruct (negb _); [auto|]. destruct c; auto. destruct (extract_message _ _ _ _); auto.
  - auto.
  - auto.
  - auto.
  - destruct k; auto.
  - auto.
  - auto.
  - auto.
Qed.
Lemma run_consts d es : d_inst (s_data (fst (run (init d) es))) = d_inst d /\ d_name (s_data (fst (run (init d) es))) = d_name d.
Proof.
  induction es as [|e es IH] using rev_ind; [auto|]. rewrite run_snoc. cbn [fst].
  destruct (step_consts (fst (run (init d) es)) e) as [-> ->]. exact IH.
Qed.

Lemma step_rget st e k x : rget (k, x) (s_requests (fst (step st e))) =
  match e with
  | EMissing inst k' x' s =>
      if (inst =? d_inst (s_data st)) && same (k', x') (k, x)
      then match rget (k, x) (s_requests st) with None => Some s | Some s' => Some s' end else rget (k, x) (s_requests st)
  | EOrdered y => if key_eqb x y then None else rget (k, x) (s_requests st)
  | EViewChange => None
  | EStable y => if not_after x y then None else rget (k, x) (s_requests st)
  | _ => rget (k, x) (s_requests st)
  end.
Proof.
  destruct e as [inst k' x' s|k' p frm|k' p c frm|y| |y|k' m voter|m|xs|v l pps]; cbn [step].
  - destruct (inst =? d_inst (s_data st)); cbn [negb andb fst]; [|reflexivity].
    destruct (rget (k', x') (s_requests st)) as [s'|] eqn:E; cbn [fst s_requests with_requests rget].
    + destruct (same (k', x') (k, x)) eqn:Q; [|reflexivity]. apply same_iff in Q. injection Q as -> ->. rewrite E. reflexivity.
    + destruct (same (k', x') (k, x)) eqn:Q; [|reflexivity]. apply same_iff in Q. injection Q as -> ->. rewrite E. reflexivity.
  - destruct (validate_message_req _ _); [|auto]. destruct (p_seq p); [|auto]. destruct (get_reply _ _ _); auto.
  - destruct (negb _); [auto|]. destruct c; auto. destruct (extract_message _ _ _ _); auto.
  - cbn [fst s_requests with_requests]. rewrite rget_rdel. cbn [snd]. reflexivity.
  - reflexivity.
  - cbn [fst s_requests with_requests]. rewrite rget_rdel. cbn [snd]. reflexivity.
  - reflexivity.
  - reflexivity.
  - reflexivity.
  - reflexivity.
Qed.

Lemma snoc_inj {A} (a b : list A) x y : a ++ [x] = b ++ [y] -> a = b /\ x = y.
Proof. apply app_inj_tail. Qed.
Lemma split_snoc {A} (l : list A) e a b x : l ++ [e] = a ++ x :: b ->
  (b = [] /\ a = l /\ x = e) \/ exists b', b = b' ++ [e] /\ l = a ++ x :: b'.
Proof.
  destruct b as [|y b] using rev_ind; intros E.
  - apply snoc_inj in E as [-> ->]. auto.
  - clear IHb. right. change (a ++ x :: b ++ [y]) with (a ++ (x :: b) ++ [y]) in E. rewrite app_assoc in E.
    apply snoc_inj in E as [-> ->]. exists b. auto.
Qed.

Definition no_request inst k x es : Prop :=
  forall s a b, es = a ++ EMissing inst k x s :: b -> exists e, In e b /\ ends x e.

Lemma asking_keep inst k x s es e : asking inst k x s es -> ~ ends x e -> asking inst k x s (es ++ [e]).
Proof.
  intros (es1 & es2 & -> & N & F) Ne. exists es1, (es2 ++ [e]). split; [rewrite <- app_assoc; reflexivity|].
  split; [|exact F]. intros e' Hi. apply in_app_iff in Hi as [Hi|[<-|[]]]; auto.
Qed.
Lemma no_request_keep inst k x es e : no_request inst k x es -> (forall s, e <> EMissing inst k x s) -> no_request inst k x (es ++ [e]).
Proof.
  intros N Ne s a b E. destruct (split_snoc _ _ _ _ _ E) as [(-> & -> & X)|(b' & -> & ->)]; [destruct (Ne s); congruence|].
  destruct (N s a b' eq_refl) as (e' & Hi & En). exists e'. split; [apply in_or_app; auto|exact En].
Qed.
Lemma no_request_end inst k x es e : ends x e -> no_request inst k x (es ++ [e]).
Proof.
  intros En s a b E. destruct (split_snoc _ _ _ _ _ E) as [(_ & _ & X)|(b' & -> & _)]; [subst e; destruct En|].
  exists e. split; [apply in_or_app; right; left; reflexivity|exact En].
Qed.

Lemma requests_inv d es k x :
  match rget (k, x) (s_requests (fst (run (init d) es))) with
  | Some s => asking (d_inst d) k x s es
  | None => no_request (d_inst d) k x es
  end.
Proof.
  induction es as [|e es IH] using rev_ind; [intros s a b E; destruct a; discriminate|].
  rewrite run_snoc. cbn [fst]. rewrite step_rget. rewrite (proj1 (run_consts d es)).
  set (r := rget (k, x) (s_requests (fst (run (init d) es)))) in *. clearbody r.
  assert (Keep : ~ ends x e -> (forall s, e <> EMissing (d_inst d) k x s) ->
    match r with Some s => asking (d_inst d) k x s (es ++ [e]) | None => no_request (d_inst d) k x (es ++ [e]) end).
  { intros Ne Nm. destruct r; [apply asking_keep; auto|apply no_request_keep; auto]. }
  destruct e as [inst k' x' s|k' p frm|k' p c frm|y| |y|k' m voter|m|xs|v l pps]; cbn [ends] in *;
    try (apply Keep; [tauto|discriminate]).
  - destruct (inst =? d_inst d) eqn:Ei; cbn [andb].
    + apply Nat.eqb_eq in Ei as ->. destruct (same (k', x') (k, x)) eqn:Q.
      * apply same_iff in Q. injection Q as -> ->. destruct r as [s'|]; [apply asking_keep; auto|].
        exists es, []. split; [reflexivity|]. split; [intros e []|]. intros s' a b E. exact (IH s' a b E).
      * apply Keep; [tauto|]. intros s' E. injection E as -> -> _. rewrite (proj2 (same_iff _ _) eq_refl) in Q. discriminate.
    + apply Keep; [tauto|]. intros s' E. injection E as -> _ _ _. rewrite Nat.eqb_refl in Ei. discriminate.
  - destruct (key_eqb x y) eqn:Q.
    + apply key_eqb_iff in Q as ->. apply no_request_end. reflexivity.
    + apply Keep; [|discriminate]. intros ->. rewrite key_eqb_refl in Q. discriminate.
  - apply no_request_end. exact I.
  - unfold not_after. destruct (Nat.leb_spec (snd x) (snd y)) as [L|L].
    + apply no_request_end. exact L.
    + apply Keep; [lia|discriminate].
Qed.

Lemma asking_unique inst k x s es : asking inst k x s es -> ~ no_request inst k x es.
Proof. intros (es1 & es2 & -> & N & _) R. destruct (R s es1 es2 eq_refl) as (e & Hi & En). exact (N e Hi En). Qed.
Lemma asking_rget d es k x s : asking (d_inst d) k x s es -> exists s', rget (k, x) (s_requests (fst (run (init d) es))) = Some s'.
Proof.
  intros A. pose proof (requests_inv d es k x) as R. destruct (rget _ _) as [s'|]; [eauto|]. destruct (asking_unique _ _ _ _ _ A R).
Qed.
Lemma prefix_split {A} (a b c e : list A) x y : a ++ x :: b = c ++ y :: e ->
  (a = c /\ x = y /\ b = e) \/ (exists m, c = a ++ x :: m /\ b = m ++ y :: e) \/ (exists m, a = c ++ y :: m /\ e = m ++ x :: b).
Proof.
  revert c. induction a as [|h a IH]; intros c E; destruct c as [|h' c]; cbn [app] in E; injection E as E1 E2; subst.
  - auto.
  - right. left. exists c. auto.
  - right. right. exists a. auto.
  - destruct (IH c E2) as [(-> & -> & ->)|[(m & -> & ->)|(m & -> & ->)]]; [auto|right; left; exists m; auto|right; right; exists m; auto].
Qed.
Lemma asking_fun inst k x s s' es : asking inst k x s es -> asking inst k x s' es -> s = s'.
Proof.
  intros (a & b & E & N & F) (a' & b' & E' & N' & F'). rewrite E in E'.
  destruct (prefix_split _ _ _ _ _ _ E') as [(_ & Q & _)|[(m & -> & ->)|(m & -> & ->)]].
  - injection Q as ->. reflexivity.
  - destruct (F' s a m eq_refl) as (e & Hi & En). destruct (N e); [apply in_or_app; auto|exact En].
  - destruct (F s' a' m eq_refl) as (e & Hi & En). destruct (N' e); [apply in_or_app; auto|exact En].
Qed.
Lemma asking_iff d es k x s : rget (k, x) (s_requests (fst (run (init d) es))) = Some s <-> asking (d_inst d) k x s es.
Proof.
  pose proof (requests_inv d es k x) as R. split; intros A.
  - rewrite A in R. exact R.
  - destruct (rget _ _) as [s'|]; [f_equal; eapply asking_fun; eauto|]. destruct (asking_unique _ _ _ _ _ A R).
Qed.

(** ** Theorems *)
(** Replies are only taken as asked: the message is for this instance and a batch for which the
    replica is asking, and which it has not ordered; it says what was expected; it counts as a
    message of the node that replied; a PrePrepare is not one the replica has. *)
Theorem C69_delivered d es e k m frm : let st := fst (run (init d) es) in
  In (ODeliver k m frm) (snd (step st e)) ->
  (exists p, e = ERep k p (Good m) frm) /\ m_inst m = d_inst d /\
  (exists s, asking (d_inst d) k (m_key m) s es /\ as_expected k m s) /\
  snd (d_last_ordered (s_data st)) < snd (m_key m) /\
  (k = KPrePrepare -> ~ In (m_key m) (d_preprepared (s_data st))).
Proof.
  intros st Hi. subst st. set (st := fst (run (init d) es)) in *.
  destruct e as [inst k' x s|k' p f|k' p c f|x| |x|k' m' voter|m'|xs|v l pps]; cbn [step] in Hi; try (destruct Hi; fail).
  - destruct (negb _); [destruct Hi|]. destruct (rget _ _); cbn in Hi; [tauto|]. destruct Hi as [E|[]]. discriminate E.
  - destruct (validate_message_req _ _); [|destruct Hi]. destruct (p_seq p); [|destruct Hi]. destruct (get_reply _ _ _); [|destruct Hi].
    destruct Hi as [E|[]]. discriminate E.
  - destruct (p_inst p =? d_inst (s_data st)) eqn:Ei; cbn [negb] in Hi; [|destruct Hi]. apply Nat.eqb_eq in Ei.
    destruct c as [| |m']; try (destruct Hi; fail).
    destruct (extract_message st k' p m') as [m''|] eqn:Ex; [|destruct Hi]. destruct Hi as [E|[]]. injection E as -> -> ->.
    unfold extract_message in Ex.
    destruct ((m_inst m' =? p_inst p) && _ && _) eqn:Ep; cbn [negb] in Ex; [|discriminate].
    apply andb_prop in Ep as [Ep Eseq]. apply andb_prop in Ep as [Einst Eview]. apply Nat.eqb_eq in Einst.
    destruct (rget (k, m_key m') (s_requests st)) as [s|] eqn:Er; [|discriminate].
    destruct (not_after (m_key m') (d_last_ordered (s_data st))) eqn:Eo; [discriminate|].
    destruct (match s with None => true | Some e => match k with KCommit => false | _ => data_eqb (m_data m') e end end) eqn:Es;
      cbn [negb] in Ex; [|discriminate].
    destruct (match k with KPrePrepare => existsb (key_eqb (m_key m')) (d_preprepared (s_data st)) | _ => false end) eqn:Epp; [discriminate|].
    injection Ex as <-. split; [exists p; reflexivity|].
    split; [rewrite Einst, Ei; apply run_consts|].
    split.
    { exists s. split; [apply asking_iff; exact Er|]. destruct s as [e|]; cbn [as_expected]; [|exact I].
      destruct k; try discriminate; (split; [discriminate|apply data_eqb_iff; exact Es]). }
    split; [unfold not_after in Eo; apply Nat.leb_gt; exact Eo|].
    intros -> Hin. assert (existsb (key_eqb (m_key m')) (d_preprepared (s_data st)) = true); [|congruence].
    apply existsb_exists. exists (m_key m'). split; [exact Hin|apply key_eqb_refl].
Qed.

(** A message is asked for once, until the batch is ordered, below the stable checkpoint, or a view
    change starts. *)
Theorem C69_once d es e k p : In (OReq k p) (snd (step (fst (run (init d) es)) e)) ->
  exists x s, e = EMissing (d_inst d) k x s /\ p = Params (d_inst d) (fst x) (Some (snd x)) /\
    forall s' a b, es = a ++ EMissing (d_inst d) k x s' :: b -> exists e', In e' b /\ ends x e'.
Proof.
  destruct e as [inst k' x s|k' p' f|k' p' c f|x| |x|k' m' voter|m'|xs|v l pps]; cbn [step]; intros Hi; try (destruct Hi; fail).
  - rewrite (proj1 (run_consts d es)) in Hi. destruct (inst =? d_inst d) eqn:Ei; cbn [negb] in Hi; [|destruct Hi].
    apply Nat.eqb_eq in Ei as ->. pose proof (requests_inv d es k' x) as R.
    destruct (rget (k', x) _) as [s'|]; [destruct Hi|]. destruct Hi as [E|[]]. injection E as -> <-.
    exists x, s. split; [reflexivity|]. split; [reflexivity|]. intros s' a b E. exact (R s' a b E).
  - destruct (validate_message_req _ _); [|destruct Hi]. destruct (p_seq p'); [|destruct Hi]. destruct (get_reply _ _ _); [|destruct Hi].
    destruct Hi as [E|[]]. discriminate E.
  - destruct (negb _); [destruct Hi|]. destruct c; try (destruct Hi; fail). destruct (extract_message _ _ _ _); [|destruct Hi].
    destruct Hi as [E|[]]. discriminate E.
Qed.
(** And it is asked for when it is missing, if it was not asked for already. *)
Theorem C69_asks d es k x s : (forall s', ~ asking (d_inst d) k x s' es) ->
  snd (step (fst (run (init d) es)) (EMissing (d_inst d) k x s)) = [OReq k (Params (d_inst d) (fst x) (Some (snd x)))].
Proof.
  intros N. cbn [step]. rewrite (proj1 (run_consts d es)), Nat.eqb_refl. cbn [negb].
  destruct (rget (k, x) (s_requests (fst (run (init d) es)))) as [s'|] eqn:E; [|reflexivity].
  destruct (N s'). apply asking_iff. exact E.
Qed.

(** *** Answers *)
Lemma vget_vset k x v d : vget x (vset k v d) = if key_eqb k x then Some v else vget x d.
Proof.
  induction d as [|(k', v') d IH]; cbn [vset vget]; [reflexivity|].
  destruct (key_eqb k' k) eqn:E; cbn [vget].
  - apply key_eqb_iff in E as ->. destruct (key_eqb k x); reflexivity.
  - rewrite IH. destruct (key_eqb k' x) eqn:Q; [|reflexivity]. apply key_eqb_iff in Q as ->.
    destruct (key_eqb k x) eqn:Q2; [|reflexivity]. apply key_eqb_iff in Q2 as ->. rewrite key_eqb_refl in E. discriminate.
Qed.
Lemma vget_filter p x d : (forall v, p (x, v) = true) \/ (forall v, p (x, v) = false) ->
  (forall y v v', p (y, v) = p (y, v')) ->
  forall m vs, vget x (filter p d) = Some (m, vs) -> vget x d = Some (m, vs).
Proof.
  intros _ Ext m vs. induction d as [|(k', v') d IH]; cbn [filter vget]; [auto|].
  destruct (p (k', v')) eqn:P; cbn [vget].
  - destruct (key_eqb k' x); auto.
  - intros E. specialize (IH E). destruct (key_eqb k' x) eqn:Q; [|exact IH]. apply key_eqb_iff in Q as ->.
    exfalso. clear IH. induction d as [|(k2, v2) d IH2]; cbn [filter vget] in E; [discriminate|].
    destruct (p (k2, v2)) eqn:P2; cbn [vget] in E; [|auto]. destruct (key_eqb k2 x) eqn:Q; [|auto].
    apply key_eqb_iff in Q as ->. rewrite (Ext x v2 v') in P2. congruence.
Qed.

Definition votes_of (k : kind) (d : shared) : votes := match k with KPrepare => d_prepares d | _ => d_commits d end.
(** the votes counted are those received, the message kept is one of them *)
Definition voted (es : list event) (k : kind) (d : votes) : Prop := forall x m vs, vget x d = Some (m, vs) ->
  m_key m = x /\ (exists v, In v vs /\ In (EVote k m v) es) /\ forall v, In v vs -> exists m', In (EVote k m' v) es /\ m_key m' = x.
Lemma voted_more es es' k d : incl es es' -> voted es k d -> voted es' k d.
Proof.
  intros Hi V x m vs E. destruct (V x m vs E) as (A & (v & B & C) & D). split; auto. split; [exists v; auto|].
  intros v' Hv. destruct (D v' Hv) as (m' & M1 & M2). exists m'. auto.
Qed.
Lemma voted_add es k d m v : In (EVote k m v) es -> voted es k d -> voted es k (add_msg m v d).
Proof.
  intros Hm V x m0 vs. unfold add_msg. destruct (vget (m_key m) d) as [[m1 vs1]|] eqn:E; rewrite vget_vset.
  - destruct (key_eqb (m_key m) x) eqn:Q; [|apply V]. apply key_eqb_iff in Q. intros X. injection X as <- <-.
    destruct (V _ _ _ E) as (A & (v' & B & C) & D). split; [congruence|]. split; [exists v'; split; [right; exact B|exact C]|].
    intros v2 [<-|Hv]; [exists m; auto|]. destruct (D v2 Hv) as (m2 & M1 & M2). exists m2. split; [exact M1|congruence].
  - destruct (key_eqb (m_key m) x) eqn:Q; [|apply V]. apply key_eqb_iff in Q. intros X. injection X as <- <-.
    split; [exact Q|]. split; [exists v; split; [left; reflexivity|exact Hm]|]. intros v2 [<-|[]]. exists m. auto.
Qed.
Lemma voted_out es k d xs : voted es k d -> voted es k (filter (fun a => negb (existsb (key_eqb (fst a)) xs)) d).
Proof.
  intros V x m vs E. apply V. eapply vget_filter; [| |exact E]; [|reflexivity].
  cbn [fst]. destruct (existsb (key_eqb x) xs); [right|left]; reflexivity.
Qed.

Lemma data_inv d es : d_sent d = [] -> d_prepares d = [] -> d_commits d = [] ->
  let s := s_data (fst (run (init d) es)) in
  (forall m, In m (d_sent s) -> In (ESent m) es) /\ voted es KPrepare (d_prepares s) /\ voted es KCommit (d_commits s).
Proof.
  intros Es Ep Ec. induction es as [|e es IH] using rev_ind.
  { cbn. rewrite Es, Ep, Ec. split; [intros m []|]. split; intros x m vs E; discriminate. }
  rewrite run_snoc. cbn [fst]. set (st := fst (run (init d) es)) in *. clearbody st. destruct IH as (A & B & C).
  assert (Inc : incl es (es ++ [e])) by (intros y Hy; apply in_or_app; auto).
  assert (A' : forall m, In m (d_sent (s_data st)) -> In (ESent m) (es ++ [e])) by (intros m Hm; apply Inc, A, Hm).
  pose proof (voted_more _ _ _ _ Inc B) as B'. pose proof (voted_more _ _ _ _ Inc C) as C'.
  assert (Last : In e (es ++ [e])) by (apply in_or_app; right; left; reflexivity).
  destruct e as [inst k' x s|k' p f|k' p c f|x| |x|k' m' voter|m'|xs|v l pps]; cbn [step].
  - destruct (negb _); [auto|]. destruct (rget _ _); auto.
  - destruct (validate_message_req _ _); [|auto]. destruct (p_seq p); [|auto]. destruct (get_reply _ _ _); auto.
  - destruct (negb _); [auto|]. destruct c; auto. destruct (extract_message _ _ _ _); auto.
  - auto.
  - auto.
  - auto.
  - destruct k'; cbn [fst s_data with_data set_votes d_sent d_prepares d_commits]; [auto| |].
    + split; [auto|]. split; [apply voted_add; auto|auto].
    + split; [auto|]. split; [auto|apply voted_add; auto].
  - cbn [fst s_data with_data set_sent d_sent d_prepares d_commits]. split; [|auto]. intros m [<-|Hm]; auto.
  - cbn [fst s_data with_data d_sent d_prepares d_commits]. split; [intros m Hm; apply filter_In in Hm as [Hm _]; auto|].
    split; apply voted_out; auto.
  - auto.
Qed.

(** What a replica sends in reply is for the batch asked for, of the instance and the current view.
    It is its own PrePrepare, or a Prepare or Commit that it received from someone, while it sent one
    for the same batch itself. *)
Theorem C69_served d es e k p m to : let st := fst (run (init d) es) in
  d_sent d = [] -> d_prepares d = [] -> d_commits d = [] ->
  In (ORep k p m to) (snd (step st e)) ->
  e = EReq k p to /\ p_inst p = d_inst d /\ m_key m = (d_view (s_data st), snd (m_key m)) /\
  p = Params (d_inst d) (fst (m_key m)) (Some (snd (m_key m))) /\
  match k with
  | KPrePrepare => In (ESent m) es
  | _ => (exists v, In (EVote k m v) es) /\ exists m', own (d_name d) es k m' /\ m_key m' = m_key m
  end.
Proof.
  intros st Es Ep Ec. destruct (data_inv d es Es Ep Ec) as (A & B & C). fold st in A, B, C.
  pose proof (run_consts d es) as (Ci & Cn). fold st in Ci, Cn. clearbody st.
  destruct e as [inst k' x s|k' p' f|k' p' c f|x| |x|k' m' voter|m'|xs|v l pps]; cbn [step]; intros Hi; try (destruct Hi; fail).
  - destruct (negb _); [destruct Hi|]. destruct (rget _ _); cbn in Hi; [tauto|]. destruct Hi as [E|[]]. discriminate E.
  - destruct (validate_message_req (s_data st) p') eqn:V; [|destruct Hi]. unfold validate_message_req in V.
    apply andb_prop in V as [V _]. apply andb_prop in V as [V1 V2]. apply Nat.eqb_eq in V1, V2.
    destruct p' as [pi pv ps]. cbn [p_inst p_view p_seq] in *. destruct ps as [n|]; [|destruct Hi].
    destruct (get_reply (s_data st) k' (pv, n)) as [m0|] eqn:G; [|destruct Hi]. destruct Hi as [E|[]]. injection E as -> <- -> <-.
    assert (Cv : forall d0, voted es k d0 -> k <> KPrePrepare -> counted (pv, n) (d_name (s_data st)) d0 = Some m ->
               m_key m = (pv, n) /\ (exists v, In (EVote k m v) es) /\ exists m', own (d_name d) es k m' /\ m_key m' = m_key m).
    { intros d0 V0 Nk Q. unfold counted in Q. destruct (vget (pv, n) d0) as [[m1 vs]|] eqn:Eg; [|discriminate].
      destruct (existsb (Nat.eqb (d_name (s_data st))) vs) eqn:Ex; [|discriminate]. injection Q as ->.
      destruct (V0 _ _ _ Eg) as (K1 & (v & _ & K2) & K3). split; [exact K1|]. split; [exists v; exact K2|].
      apply existsb_exists in Ex as (y & Hy & Ey). apply Nat.eqb_eq in Ey. subst y. destruct (K3 _ Hy) as (m' & M1 & M2).
      exists m'. rewrite Cn in M1. split; [destruct k; [congruence|exact M1|exact M1]|congruence]. }
    assert (Main : m_key m = (pv, n) /\ match k with
      | KPrePrepare => In (ESent m) es
      | _ => (exists v, In (EVote k m v) es) /\ exists m', own (d_name d) es k m' /\ m_key m' = m_key m end).
    { destruct k; cbn [get_reply] in G.
      - apply find_some in G as [G1 G2]. apply key_eqb_iff in G2. split; [exact G2|apply A; exact G1].
      - apply (Cv _ B); [discriminate|exact G].
      - apply (Cv _ C); [discriminate|exact G]. }
    destruct Main as [Mk Mo]. split; [reflexivity|]. cbn [p_inst p_view p_seq] in *. split; [congruence|].
    split; [rewrite Mk; cbn [fst snd]; congruence|]. split; [rewrite Mk; cbn [fst snd]; congruence|]. exact Mo.
  - destruct (negb _); [destruct Hi|]. destruct c; try (destruct Hi; fail). destruct (extract_message _ _ _ _); [|destruct Hi].
    destruct Hi as [E|[]]. discriminate E.
Qed.
(** So it is its own message if all Prepares (Commits) that it counts for a batch say the same. *)
Theorem C69_own_partial d es e k p m to :
  d_sent d = [] -> d_prepares d = [] -> d_commits d = [] ->
  (forall m1 m2 v1 v2, In (EVote k m1 v1) es -> In (EVote k m2 v2) es -> m_key m1 = m_key m2 -> m1 = m2) ->
  In (ORep k p m to) (snd (step (fst (run (init d) es)) e)) -> own (d_name d) es k m.
Proof.
  intros Es Ep Ec U Hi. destruct (C69_served d es e k p m to Es Ep Ec Hi) as (_ & _ & _ & _ & R).
  destruct k; cbn [own] in *; [exact R| |].
  - destruct R as ((v & V) & m' & M1 & M2). rewrite (U _ _ _ _ V M1 (eq_sym M2)). exact M1.
  - destruct R as ((v & V) & m' & M1 & M2). rewrite (U _ _ _ _ V M1 (eq_sym M2)). exact M1.
Qed.

(** A replica that asks gets the message: when it asks, a replica of the same instance and view that
    has the message replies, and the first one handles the reply, unless it has ordered the batch,
    has the PrePrepare, or expects other contents. *)
Theorem C69_recovered d es d' es' k (x : key) s m from to : let st := fst (run (init d) es) in let st' := fst (run (init d') es') in
  d_inst d' = d_inst d -> d_view (s_data st') = fst x -> 0 < snd x ->
  d_sent d' = [] -> d_prepares d' = [] -> d_commits d' = [] ->
  get_reply (s_data st') k x = Some m -> m_inst m = d_inst d -> as_expected k m s ->
  (forall s', ~ asking (d_inst d) k x s' es) ->
  snd (d_last_ordered (s_data st)) < snd x -> (k = KPrePrepare -> ~ In x (d_preprepared (s_data st))) ->
  let p := Params (d_inst d) (fst x) (Some (snd x)) in
  snd (step st (EMissing (d_inst d) k x s)) = [OReq k p] /\
  snd (step st' (EReq k p from)) = [ORep k p m from] /\
  snd (step (fst (step st (EMissing (d_inst d) k x s))) (ERep k p (Good m) to)) = [ODeliver k m to].
Proof.
  intros st st' Ei Ev Pos Es Ep Ec G Em Ex Na Lo Npp p.
  split; [apply C69_asks; exact Na|].
  pose proof (run_consts d' es') as (Ci' & _). fold st' in Ci'. pose proof (run_consts d es) as (Ci & _). fold st in Ci.
  assert (R : snd (step st' (EReq k p from)) = [ORep k p m from]).
  { cbn [step]. unfold validate_message_req. subst p. cbn [p_inst p_view p_seq]. rewrite Ci', Ei, Nat.eqb_refl, Ev, Nat.eqb_refl.
    destruct (Nat.ltb_spec 0 (snd x)); [|lia]. cbn [andb]. rewrite <- surjective_pairing, G. reflexivity. }
  split; [exact R|].
  assert (Mk : m_key m = x).
  { assert (Hi : In (ORep k p m from) (snd (step st' (EReq k p from)))) by (rewrite R; left; reflexivity).
    destruct (C69_served d' es' _ _ _ _ _ Es Ep Ec Hi) as (_ & _ & _ & Q & _). subst p. injection Q as _ Q1 Q2.
    destruct x, (m_key m); cbn in Q1, Q2. congruence. }
  assert (Rn : rget (k, x) (s_requests st) = None).
  { destruct (rget (k, x) (s_requests st)) as [s'|] eqn:Er; [|reflexivity]. destruct (Na s'). apply asking_iff. exact Er. }
  clearbody st.
  assert (S1 : fst (step st (EMissing (d_inst d) k x s)) = with_requests st (((k, x), s) :: s_requests st)).
  { cbn [step]. rewrite Ci, Nat.eqb_refl. cbn [negb]. rewrite Rn. reflexivity. }
  rewrite S1. cbn [step with_requests s_data]. subst p. cbn [p_inst]. rewrite Ci, Nat.eqb_refl. cbn [negb].
  unfold extract_message. cbn [p_inst p_view p_seq s_requests s_data with_requests]. rewrite Em, Mk, !Nat.eqb_refl. cbn [andb negb rget].
  rewrite (proj2 (same_iff _ _) eq_refl). unfold not_after. destruct (Nat.leb_spec (snd x) (snd (d_last_ordered (s_data st)))); [lia|].
  assert (X : match s with None => true | Some e => match k with KCommit => false | _ => data_eqb (m_data m) e end end = true).
  { destruct s as [e|]; [|reflexivity]. destruct Ex as [Nk ->]. destruct k; [apply data_eqb_iff; reflexivity|apply data_eqb_iff; reflexivity|congruence]. }
  rewrite X. cbn [negb].
  assert (Y : match k with KPrePrepare => existsb (key_eqb x) (d_preprepared (s_data st)) | _ => false end = false).
  { destruct k; try reflexivity. destruct (existsb _ _) eqn:Q; [|reflexivity]. apply existsb_exists in Q as (y & Hy & Q).
    apply key_eqb_iff in Q as <-. destruct (Npp eq_refl Hy). }
  rewrite Y. reflexivity.
Qed.

(** ** Examples *)
Definition d0 (me : name) : shared := Shared me 0 2 (2, 4) [] [] [] [].
Definition pp6 : message := Msg 0 (2, 6) (7, 8, 9) 1.
Definition es_ask : list event := [EMissing 0 KPrePrepare (2, 6) (Some (7, 8, 9)); EMissing 0 KPrePrepare (2, 6) None].
Example C69_ex :
  snd (run (init (d0 1)) es_ask) = [OReq KPrePrepare (Params 0 2 (Some 6))] /\
  snd (step (fst (run (init (d0 0)) [ESent pp6])) (EReq KPrePrepare (Params 0 2 (Some 6)) 1)) = [ORep KPrePrepare (Params 0 2 (Some 6)) pp6 1] /\
  (* the right one, one with another digest, one not asked for, one whose batch is ordered *)
  snd (step (fst (run (init (d0 1)) es_ask)) (ERep KPrePrepare (Params 0 2 (Some 6)) (Good pp6) 0)) = [ODeliver KPrePrepare pp6 0] /\
  snd (step (fst (run (init (d0 1)) es_ask)) (ERep KPrePrepare (Params 0 2 (Some 6)) (Good (Msg 0 (2, 6) (5, 8, 9) 1)) 0)) = [] /\
  snd (step (fst (run (init (d0 1)) es_ask)) (ERep KPrePrepare (Params 0 2 (Some 7)) (Good (Msg 0 (2, 7) (7, 8, 9) 1)) 0)) = [] /\
  snd (step (fst (run (init (d0 1)) (es_ask ++ [EProgress 2 (2, 6) []]))) (ERep KPrePrepare (Params 0 2 (Some 6)) (Good pp6) 0)) = [].
Proof. repeat split; vm_compute; reflexivity. Qed.
Example asking_ex : asking 0 KPrePrepare (2, 6) (Some (7, 8, 9)) es_ask.
Proof. apply (asking_iff (d0 1)). vm_compute. reflexivity. Qed.
Example own_ex : let es := [EVote KPrepare pp6 2; EVote KPrepare pp6 1] in
  In (ORep KPrepare (Params 0 2 (Some 6)) pp6 3) (snd (step (fst (run (init (d0 1)) es)) (EReq KPrepare (Params 0 2 (Some 6)) 3))) /\
  own 1 es KPrepare pp6.
Proof. split; [left; vm_compute; reflexivity|right; left; reflexivity]. Qed.

(** ** What does not hold *)
(** A replica asked for its Commit replies with the first one it counted for the batch, that of
    another node, with the other node's signatures. *)
Theorem C69_own_refuted : exists d es p m to, d_sent d = [] /\ d_prepares d = [] /\ d_commits d = [] /\
  In (ORep KCommit p m to) (snd (step (fst (run (init d) es)) (EReq KCommit p to))) /\
  ~ own (d_name d) es KCommit m /\ exists m', own (d_name d) es KCommit m'.
Proof.
  exists (d0 1), [EVote KCommit (Msg 0 (2, 6) (0, 0, 0) 102) 2; EVote KCommit (Msg 0 (2, 6) (0, 0, 0) 101) 1],
    (Params 0 2 (Some 6)), (Msg 0 (2, 6) (0, 0, 0) 102), 3.
  repeat (split; [reflexivity|]). split; [left; vm_compute; reflexivity|]. split.
  - intros [E|[E|[]]]; discriminate E.
  - exists (Msg 0 (2, 6) (0, 0, 0) 101). right. left. reflexivity.
Qed.
(** The replica that asked then finds the signatures wrong, reports the node that replied, and does
    not count the Commit: for each scheme in which a node's signature is not correct under another
    node's key. *)
Theorem C69_reported_refuted : exists (keys : nat -> option (Bls_Model.name -> option nat)) verify
    (t : Bls_Model.audit_txn) (pp : Bls_Model.pre_prepare nat) (c : Bls_Model.commit nat) st,
  Bls_Model.validate_commit (vk := nat) verify keys (fun x => x) [t] c 2 pp = Bls_Model.Ok true /\
  Bls_Model.step (vk := nat) (msig := nat) verify (fun _ => 0) (fun _ _ _ => true) keys (fun x => x) (fun x => x)
    (Bls_Model.Config 3 (Quorum_Model.Quorums 4) true) st (Bls_Model.ECommit [t] c 1 pp) = Bls_Model.Ok (st, [Bls_Model.OWrong 1]).
Proof.
  exists (fun _ => Some (fun x => Some x)), (fun s _ k => s =? k),
    (Bls_Model.Audit 6 [(1, 50)] [(1, Bls_Model.Hash 60)]), (Bls_Model.PrePrepare 2 6 1 (Bls_Model.Val 7) None),
    (Bls_Model.Commit 2 6 (Some [(1, 2)])), (Bls_Model.State [] None [] (2, 4)).
  split; vm_compute; reflexivity.
Qed.
(** If the reply gets lost, or the node asked does not have the message yet, it is not asked for again. *)
Theorem C69_retry_refuted : exists d es k x, In (EMissing 0 k x None) es /\ (forall e, In e es -> ~ ends x e) /\
  (forall p c f, ~ In (ERep k p c f) es) /\
  forall n s, snd (step (fst (run (init d) (es ++ repeat (EMissing 0 k x s) n))) (EMissing 0 k x s)) = [].
Proof.
  exists (d0 1), [EMissing 0 KPrePrepare (2, 6) None], KPrePrepare, (2, 6).
  split; [left; reflexivity|]. split; [intros e [<-|[]] []|]. split; [intros p c f [E|[]]; discriminate E|].
  intros n s. assert (E : fst (run (init (d0 1)) ([EMissing 0 KPrePrepare (2, 6) None] ++ repeat (EMissing 0 KPrePrepare (2, 6) s) n))
     = fst (run (init (d0 1)) [EMissing 0 KPrePrepare (2, 6) None])).
  { induction n as [|n IH]; [reflexivity|]. cbn [repeat]. rewrite repeat_cons. rewrite app_assoc, run_snoc. cbn [fst]. rewrite IH. reflexivity. }
  rewrite E. reflexivity.
Qed.

Print Assumptions C69_delivered.
Print Assumptions C69_once.
Print Assumptions C69_asks.
Print Assumptions C69_served.
Print Assumptions C69_own_partial.
Print Assumptions C69_recovered.
Print Assumptions C69_own_refuted.
Print Assumptions C69_reported_refuted.
Print Assumptions C69_retry_refuted.
