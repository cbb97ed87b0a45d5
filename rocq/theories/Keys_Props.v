(** C105: a node has the keys of the validators, and its stack is set up for them. *)
From Coq Require Import Ascii String Decimal DecimalNat DecimalString List Arith Bool Lia.
From Verif Require Import Keys_Model Keys_Spec.
Import ListNotations.

Lemma get_put d a k b : get (put d a k) b = if a =? b then Some k else get d b.
Proof.
  induction d as [|[c l] q IH]; cbn; [reflexivity|].
  destruct (c =? a) eqn:E; cbn.
  - apply Nat.eqb_eq in E; subst. destruct (a =? b); reflexivity.
  - rewrite IH. destruct (c =? b) eqn:F; [|reflexivity].
    apply Nat.eqb_eq in F; subst. rewrite Nat.eqb_sym, E. reflexivity.
Qed.
Lemma get_in d a k : get d a = Some k -> In k (map snd d).
Proof.
  induction d as [|[c l] q IH]; cbn; [discriminate|]. destruct (c =? a); [intros [= ->]; auto|auto].
Qed.

Section Keys.
Variable conv : nat -> nat.
Variable own : nat.
Notation init_remote := (init_remote conv).
Notation init_other := (init_other conv own).
Notation on_txn := (on_txn conv own).
Notation restart := (restart conv).
Notation step := (step conv own).
Notation run := (run conv own).

Lemma run_app n a b : run n (a ++ b) = run (run n a) b.
Proof. apply fold_left_app. Qed.

(** *** what the ledger says *)
Lemma validator_app b m l k : validator b m (l ++ k) = validator (validator b m l) m k.
Proof. revert b. induction l as [|t l IH]; intros b; cbn; auto. Qed.
Lemma ledger_other n a k : ledger (init_other n a k) = ledger n.
Proof. unfold Keys_Model.init_other. destruct (a =? own); reflexivity. Qed.
Lemma seen_other n a k : seen (init_other n a k) = seen n.
Proof. unfold Keys_Model.init_other. destruct (a =? own); reflexivity. Qed.
Lemma loaded_other n a k : loaded (init_other n a k) = loaded n.
Proof. unfold Keys_Model.init_other. destruct (a =? own); reflexivity. Qed.
Lemma ledger_on_txn n t : ledger (on_txn n t) = ledger n ++ [t].
Proof.
  unfold Keys_Model.on_txn. cbn [seen].
  destruct (was (seen n) (nym t)) as [b|]; cbn [set_seen ledger]; unfold set_seen; cbn [ledger].
  - destruct (match services t with Some s => s | None => b end && negb b); destruct (verkey t) as [k|]; try destruct (match services t with Some s => s | None => b end);
      rewrite ?ledger_other; reflexivity.
  - destruct (services t) as [[|]|]; rewrite ?ledger_other; reflexivity.
Qed.
Lemma loaded_on_txn n t : loaded (on_txn n t) = loaded n.
Proof.
  unfold Keys_Model.on_txn. cbn [seen].
  destruct (was (seen n) (nym t)) as [b|]; unfold set_seen; cbn [loaded].
  - destruct (match services t with Some s => s | None => b end && negb b); destruct (verkey t) as [k|]; try destruct (match services t with Some s => s | None => b end);
      rewrite ?loaded_other; reflexivity.
  - destruct (services t) as [[|]|]; rewrite ?loaded_other; reflexivity.
Qed.
Lemma remotes_fields ks : forall n, let m := fold_left (fun n p => init_remote n (fst p) (snd p)) ks n in
  ledger m = ledger n /\ seen m = seen n /\ loaded m = loaded n.
Proof. induction ks as [|p ks IH]; intros n; cbn; auto. destruct (IH (init_remote n (fst p) (snd p))) as (A & B & C). auto. Qed.
Lemma ledger_run os : ledger (run init os) = txns os.
Proof.
  induction os as [|o os IH] using rev_ind; [reflexivity|]. rewrite run_app.
  assert (T : forall a b, txns (a ++ b) = txns a ++ txns b).
  { clear. induction a as [|[t|] a IH]; intros b; cbn; auto. rewrite IH. reflexivity. }
  rewrite T. destruct o as [t|]; cbn [Keys_Model.run fold_left Keys_Model.step txns].
  - rewrite ledger_on_txn, IH. reflexivity.
  - unfold Keys_Model.restart, start. cbn [ledger]. rewrite (proj1 (remotes_fields _ _)), app_nil_r. exact IH.
Qed.
Definition services_of (b : option bool) (t : txn) : bool := match services t with Some s => s | None => match b with Some b => b | None => false end end.
Lemma seen_on_txn n t : seen (on_txn n t) = (nym t, services_of (was (seen n) (nym t)) t) :: seen n.
Proof.
  unfold Keys_Model.on_txn, services_of. cbn [seen].
  destruct (was (seen n) (nym t)) as [b|]; unfold set_seen; cbn [seen].
  - f_equal. destruct (match services t with Some s => s | None => b end && negb b); destruct (verkey t) as [k|]; try destruct (match services t with Some s => s | None => b end);
      rewrite ?seen_other; reflexivity.
  - destruct (services t) as [[|]|]; rewrite ?seen_other; reflexivity.
Qed.
Definition val (b : option bool) : bool := match b with Some b => b | None => false end.
Lemma seen_run os m : val (was (seen (run init os)) m) = validator false m (ledger (run init os)).
Proof.
  induction os as [|o os IH] using rev_ind; [reflexivity|]. rewrite run_app.
  destruct o as [t|]; cbn [Keys_Model.run fold_left Keys_Model.step].
  - fold (run init os). rewrite seen_on_txn, ledger_on_txn, validator_app. cbn [was validator]. rewrite <- IH.
    destruct (nym t =? m) eqn:E; [|reflexivity]. apply Nat.eqb_eq in E; subst. unfold services_of.
    destruct (services t); [reflexivity|]. reflexivity.
  - fold (run init os). unfold Keys_Model.restart, start. cbn [seen ledger].
    destruct (remotes_fields (node_keys (ledger (run init os))) (run init os)) as (A & B & _). rewrite A, B. exact IH.
Qed.

(** *** keys from the ledger *)
Lemma parse_keys l : forall s, fst (fold_left parse1 l s) = fold_left (fun d t => put d (alias t) (nym t)) l (fst s).
Proof. induction l as [|t l IH]; intros s; cbn; auto. rewrite IH. reflexivity. Qed.
Lemma parse_act l : forall s m a, (forall t, In t l -> (alias t = a <-> nym t = m)) ->
  is_active (snd (fold_left parse1 l s)) a = validator (is_active (snd s) a) m l.
Proof.
  induction l as [|t l IH]; intros s m a H; cbn [fold_left validator]; [reflexivity|].
  rewrite (IH _ m a) by (intros u I; apply H; right; exact I). f_equal. unfold parse1. cbn [snd].
  specialize (H t (or_introl eq_refl)). destruct (nym t =? m) eqn:E.
  - apply Nat.eqb_eq in E. apply H in E. subst a. destruct (services t) as [b|]; [|reflexivity].
    unfold is_active. cbn. rewrite Nat.eqb_refl. reflexivity.
  - apply Nat.eqb_neq in E. destruct (services t) as [b|]; [|reflexivity].
    unfold is_active. cbn. destruct (alias t =? a) eqn:F; [|reflexivity]. apply Nat.eqb_eq in F. apply H in F. congruence.
Qed.
Lemma puts_get l : forall d a m, (forall t, In t l -> alias t = a -> nym t = m) -> (get d a = Some m \/ exists t, In t l /\ alias t = a) ->
  get (fold_left (fun d t => put d (alias t) (nym t)) l d) a = Some m.
Proof.
  induction l as [|t l IH]; intros d a m H G; cbn [fold_left]; [destruct G as [G|(t & [] & _)]; exact G|].
  apply IH; [intros u I; apply H; right; exact I|]. rewrite get_put. destruct (alias t =? a) eqn:E.
  - apply Nat.eqb_eq in E. left. f_equal. apply H; [left; reflexivity|exact E].
  - apply Nat.eqb_neq in E. destruct G as [G|(u & [->|I] & F)]; [left; exact G|congruence|right; eauto].
Qed.
Lemma get_filter d f a k : get d a = Some k -> f a = true -> get (filter (fun p : nat * nat => f (fst p)) d) a = Some k.
Proof.
  induction d as [|[c l] q IH]; cbn; [discriminate|]. destruct (c =? a) eqn:E; intros G F.
  - apply Nat.eqb_eq in E; subst. rewrite F. cbn. rewrite Nat.eqb_refl. exact G.
  - destruct (f c); cbn; [rewrite E|]; auto.
Qed.
Lemma get_filter_none d f a : f a = false -> get (filter (fun p : nat * nat => f (fst p)) d) a = None.
Proof.
  intros F. induction d as [|[c l] q IH]; cbn; [reflexivity|]. destruct (f c) eqn:G; cbn; auto.
  destruct (c =? a) eqn:E; auto. apply Nat.eqb_eq in E; subst. congruence.
Qed.
Lemma node_keys_get l t : one_to_one l -> In t l ->
  get (node_keys l) (alias t) = if validator false (nym t) l then Some (nym t) else None.
Proof.
  intros O I. unfold node_keys. destruct (fold_left parse1 l ([], [])) as [keys act] eqn:E.
  assert (A : is_active act (alias t) = validator false (nym t) l).
  { change act with (snd (keys, act)). rewrite <- E. apply (parse_act l ([], []) (nym t) (alias t)). intros u J. apply (O u t); auto. }
  assert (G : get keys (alias t) = Some (nym t)).
  { change keys with (fst (keys, act)). rewrite <- E, parse_keys. apply puts_get; [|right; eauto]. intros u J F. apply (O u t J I). exact F. }
  rewrite <- A. destruct (is_active act (alias t)) eqn:F; [apply get_filter|apply get_filter_none]; auto.
Qed.
Lemma nodup_put d a k : NoDup (map fst d) -> NoDup (map fst (put d a k)).
Proof.
  assert (P : forall d b, In b (map fst (put d a k)) -> b = a \/ In b (map fst d)).
  { clear d. induction d as [|[c l] q IH]; intros b I; cbn in *; [intuition congruence|].
    destruct (c =? a); cbn in *; [tauto|]. destruct I as [I|I]; [tauto|]. apply IH in I. tauto. }
  induction d as [|[c l] q IH]; intros N; cbn; [repeat constructor; intros []|].
  inversion N as [|? ? A B]; subst. destruct (c =? a) eqn:E; cbn; constructor; auto.
  intros I. apply P in I. destruct I as [I|I]; auto. apply Nat.eqb_neq in E. auto.
Qed.
Lemma nodup_node_keys l : NoDup (map fst (node_keys l)).
Proof.
  unfold node_keys. destruct (fold_left parse1 l ([], [])) as [keys act] eqn:E.
  assert (N : NoDup (map fst keys)).
  { change keys with (fst (keys, act)). rewrite <- E, parse_keys. cbn [fst]. clear E. assert (H : NoDup (map fst (@nil (nat * nat)))) by constructor.
    revert H. generalize (@nil (nat * nat)). induction l as [|t l IH]; intros d H; cbn; auto. apply IH, nodup_put, H. }
  clear E. induction keys as [|[c k] q IH]; cbn; [constructor|]. inversion N as [|? ? A B]; subst.
  destruct (is_active act c); cbn; auto. constructor; auto. intros I. apply A. clear - I.
  induction q as [|[x y] q IH]; cbn in *; auto. destruct (is_active act x); cbn in *; tauto.
Qed.
Lemma remotes_get ks : NoDup (map fst ks) -> forall n a, let m := fold_left (fun n p => init_remote n (fst p) (snd p)) ks n in
  get (verif m) a = (match get ks a with Some k => Some k | None => get (verif n) a end) /\
  get (pub m) a = (match get ks a with Some k => Some (conv k) | None => get (pub n) a end).
Proof.
  induction ks as [|[b k] ks IH]; intros N n a; cbn [fold_left]; [auto|]. inversion N as [|? ? A B]; subst.
  cbn [fst snd]. cbn zeta. destruct (IH B (init_remote n b k) a) as [-> ->]. cbn [get verif pub Keys_Model.init_remote]. rewrite !get_put.
  destruct (b =? a) eqn:E; [|auto]. apply Nat.eqb_eq in E; subst.
  assert (G : get ks a = None).
  { clear - A. induction ks as [|[c l] q IH]; cbn in *; [reflexivity|]. destruct (c =? a) eqn:E; [apply Nat.eqb_eq in E; tauto|]. tauto. }
  rewrite G. auto.
Qed.

(** After a restart, whatever happened before: every validator's key, the one its identifier stands for, is on disk and the
    stack is set up to let it in *)
Theorem C105_restart : forall os t, one_to_one (txns os) -> In t (txns os) -> validator false (nym t) (txns os) = true ->
  let n := run init (os ++ [Restart]) in
  get (verif n) (alias t) = Some (nym t) /\ get (pub n) (alias t) = Some (conv (nym t)) /\
  exists l, loaded n = Some l /\ In (conv (nym t)) l.
Proof.
  intros os t O I V. cbn zeta. rewrite run_app. cbn [Keys_Model.run fold_left Keys_Model.step]. fold (run init os).
  unfold Keys_Model.restart, start. cbn [verif pub loaded].
  destruct (remotes_get (node_keys (ledger (run init os))) (nodup_node_keys _) (run init os) (alias t)) as [A B].
  rewrite ledger_run in *. rewrite (node_keys_get _ _ O I), V in A, B. split; [exact A|]. split; [exact B|].
  eexists. split; [reflexivity|]. eapply get_in. exact B.
Qed.

(** *** all the time *)
Lemma other_get n a k b : b <> own ->
  get (verif (init_other n a k)) b = (if a =? b then Some k else get (verif n) b) /\
  get (pub (init_other n a k)) b = (if a =? b then Some (conv k) else get (pub n) b).
Proof.
  intros B. unfold Keys_Model.init_other. destruct (a =? own) eqn:E.
  - apply Nat.eqb_eq in E; subst. apply not_eq_sym, Nat.eqb_neq in B. rewrite B. auto.
  - cbn. rewrite !get_put. auto.
Qed.
Lemma one_to_one_app a b : one_to_one (a ++ b) -> one_to_one a.
Proof. intros H t u I J. apply H; apply in_or_app; auto. Qed.
Lemma validator_absent m l : forall b, (forall t, In t l -> nym t <> m) -> validator b m l = b.
Proof.
  induction l as [|t l IH]; intros b H; cbn; [reflexivity|].
  pose proof (H t (or_introl eq_refl)) as E. apply Nat.eqb_neq in E. rewrite E. apply IH. intros u I. apply H. right. exact I.
Qed.
(** While no node is given a new key: every validator but the node itself has its key on disk, under its name, at any time *)
Theorem C105_on_disk_partial : forall os t, one_to_one (txns os) -> no_keys (txns os) -> In t (txns os) ->
  alias t <> own -> validator false (nym t) (txns os) = true ->
  get (verif (run init os)) (alias t) = Some (nym t) /\ get (pub (run init os)) (alias t) = Some (conv (nym t)).
Proof.
  intros os. induction os as [|o os IH] using rev_ind; intros t O K I W V; [destruct I|].
  assert (T : forall a b, txns (a ++ b) = txns a ++ txns b).
  { clear. induction a as [|[t|] a IH]; intros b; cbn; auto. rewrite IH. reflexivity. }
  destruct o as [u|].
  2:{ rewrite T in *. cbn [txns] in *. rewrite app_nil_r in *. destruct (C105_restart os t O I V) as (A & B & _). auto. }
  rewrite T in *. cbn [txns] in *. rewrite run_app. cbn [Keys_Model.run fold_left Keys_Model.step]. fold (run init os).
  assert (Ku : verkey u = None) by (apply K, in_or_app; right; left; reflexivity).
  pose proof (one_to_one_app _ _ O) as O1. assert (K1 : no_keys (txns os)) by (intros x J; apply K, in_or_app; auto).
  assert (Iu : In u (txns os ++ [u])) by (apply in_or_app; right; left; reflexivity).
  pose proof (seen_run os (nym u)) as Sn. rewrite ledger_run in Sn.
  rewrite validator_app in V. cbn [validator] in V.
  (* the key of another node is left alone *)
  destruct (Nat.eq_dec (nym u) (nym t)) as [E|E].
  - assert (Ea : alias u = alias t) by (apply (O u t Iu I); exact E).
    assert (Ee : (nym u =? nym t) = true) by (apply Nat.eqb_eq; exact E). rewrite Ee in V. rewrite E in Sn.
    assert (old : validator false (nym t) (txns os) = true -> get (verif (run init os)) (alias t) = Some (nym t) /\ get (pub (run init os)) (alias t) = Some (conv (nym t))).
    { intros V1. destruct (in_dec (fun a b : txn => ltac:(repeat decide equality) : {a = b} + {a <> b}) t (txns os)) as [J|J].
      - apply IH; auto.
      - (* an earlier transaction of the same node *)
        assert (X : exists x, In x (txns os) /\ nym x = nym t).
        { destruct (Exists_dec (fun x => nym x = nym t) (txns os) (fun x => Nat.eq_dec _ _)) as [X|X]; [apply Exists_exists in X; exact X|].
          rewrite validator_absent in V1; [discriminate|]. intros x J' F. apply X, Exists_exists. eauto. }
        destruct X as (x & J' & F). assert (G : alias x = alias t) by (apply (O x t); auto; apply in_or_app; auto).
        rewrite <- G, <- F. apply IH; auto; [rewrite G; exact W|rewrite F; exact V1]. }
    unfold Keys_Model.on_txn. cbn [seen]. rewrite E. rewrite Ku. set (n0 := Node (ledger (run init os) ++ [u]) _ _ _ _).
    assert (new : get (verif (init_other n0 (alias u) (nym t))) (alias t) = Some (nym t) /\ get (pub (init_other n0 (alias u) (nym t))) (alias t) = Some (conv (nym t))).
    { destruct (other_get n0 (alias u) (nym t) (alias t) W) as [-> ->]. rewrite Ea, Nat.eqb_refl. auto. }
    destruct (was (seen (run init os)) (nym t)) as [b|] eqn:Ws; cbn [val] in Sn.
    + rewrite Sn in *. destruct (services u) as [s|]; cbn [set_seen verif pub].
      * subst s. unfold set_seen. destruct (validator false (nym t) (txns os)) eqn:V1; cbn [andb negb verif pub]; [apply old; reflexivity|exact new].
      * rewrite V. cbn [andb negb]. unfold set_seen. cbn [verif pub]. apply old. exact V.
    + unfold set_seen. cbn [verif pub]. destruct (services u) as [s|]; [subst s; exact new|]. rewrite <- Sn in V. discriminate.
  - assert (Ea : (alias u =? alias t) = false).
    { apply Nat.eqb_neq. intros F. apply E, (O u t Iu I). exact F. }
    assert (Ee : (nym u =? nym t) = false) by (apply Nat.eqb_neq; exact E). rewrite Ee in V.
    assert (J : In t (txns os)).
    { apply in_app_or in I. destruct I as [I|[->|[]]]; [exact I|congruence]. }
    destruct (IH t O1 K1 J W V) as [A B].
    unfold Keys_Model.on_txn. cbn [seen]. rewrite Ku. set (n0 := Node (ledger (run init os) ++ [u]) _ _ _ _).
    assert (keep : get (verif (init_other n0 (alias u) (nym u))) (alias t) = Some (nym t) /\ get (pub (init_other n0 (alias u) (nym u))) (alias t) = Some (conv (nym t))).
    { destruct (other_get n0 (alias u) (nym u) (alias t) W) as [-> ->]. rewrite Ea. auto. }
    destruct (was (seen (run init os)) (nym u)) as [b|]; unfold set_seen; cbn [verif pub].
    + destruct (match services u with Some s => s | None => b end && negb b); auto.
    + destruct (services u) as [[|]|]; auto.
Qed.

(** A new key of a validator is on disk at once *)
Theorem C105_new_key : forall os u k, validator false (nym u) (txns os ++ [u]) = true -> (exists x, In x (txns os) /\ nym x = nym u) ->
  alias u <> own -> verkey u = Some k ->
  let n := run init (os ++ [NodeTxn u]) in get (verif n) (alias u) = Some k /\ get (pub n) (alias u) = Some (conv k).
Proof.
  intros os u k V (x & I & F) W K. cbn zeta. rewrite run_app. cbn [Keys_Model.run fold_left Keys_Model.step]. fold (run init os).
  pose proof (seen_run os (nym u)) as Sn. rewrite ledger_run in Sn. rewrite validator_app in V. cbn [validator] in V. rewrite Nat.eqb_refl in V.
  assert (Ws : exists b, was (seen (run init os)) (nym u) = Some b).
  { clear - I F. revert I. induction os as [|o os IH] using rev_ind; [intros []|]. intros I.
    assert (T : forall a b, txns (a ++ b) = txns a ++ txns b).
    { clear. induction a as [|[t|] a IH]; intros b; cbn; auto. rewrite IH. reflexivity. }
    rewrite T in I. rewrite run_app. destruct o as [t|]; cbn [Keys_Model.run fold_left Keys_Model.step txns] in *; fold (run init os).
    - rewrite seen_on_txn. cbn [was]. destruct (nym t =? nym u) eqn:E; [eauto|]. apply IH.
      apply in_app_or in I. destruct I as [I|[->|[]]]; [exact I|]. apply Nat.eqb_neq in E. congruence.
    - rewrite app_nil_r in I. unfold Keys_Model.restart, start. cbn [seen]. rewrite (proj1 (proj2 (remotes_fields _ _))). auto. }
  destruct Ws as [b Ws]. rewrite Ws in Sn. cbn [val] in Sn.
  unfold Keys_Model.on_txn. cbn [seen]. rewrite Ws, K. subst b. rewrite V. unfold set_seen. cbn [verif pub].
  match goal with |- get (verif (init_other ?n _ _)) _ = _ /\ _ => destruct (other_get n (alias u) k (alias u) W) as [-> ->] end.
  rewrite Nat.eqb_refl. auto.
Qed.
Lemma last_key_app m a : forall k b, last_key m k (a ++ b) = last_key m (last_key m k a) b.
Proof. induction a as [|[t|] a IH]; intros k b; cbn; auto. Qed.
(** With new keys too: from a start on, as long as the services of a validator are not touched, the key on disk is the last one
    it was given since the start, or the one its identifier stands for *)
Theorem C105_since_start_partial : forall h l t, one_to_one (txns (h ++ l)) -> In t (txns h) -> alias t <> own ->
  validator false (nym t) (txns h) = true -> (forall o, In o l -> exists u, o = NodeTxn u /\ (nym u = nym t -> services u = None)) ->
  let n := run init (h ++ [Restart] ++ l) in
  get (verif n) (alias t) = Some (last_key (nym t) (nym t) l) /\ get (pub n) (alias t) = Some (conv (last_key (nym t) (nym t) l)).
Proof.
  intros h l t. cbn zeta.
  assert (T : forall a b, txns (a ++ b) = txns a ++ txns b).
  { clear. induction a as [|[x|] a IH]; intros b; cbn; auto. rewrite IH. reflexivity. }
  intros O I W V H.
  assert (G : (get (verif (run init (h ++ [Restart] ++ l))) (alias t) = Some (last_key (nym t) (nym t) l) /\ get (pub (run init (h ++ [Restart] ++ l))) (alias t) = Some (conv (last_key (nym t) (nym t) l))) /\
     was (seen (run init (h ++ [Restart] ++ l))) (nym t) = Some true).
  2:{ apply G. }
  induction l as [|o l IH] using rev_ind.
  - rewrite !app_nil_r in *. destruct (C105_restart h t O I V) as (A & B & _). split; [split; assumption|].
    pose proof (seen_run (h ++ [Restart]) (nym t)) as Sn. rewrite ledger_run, T in Sn. cbn [txns] in Sn. rewrite app_nil_r, V in Sn.
    destruct (was (seen (run init (h ++ [Restart]))) (nym t)) as [b|]; cbn in Sn; [subst b; reflexivity|discriminate].
  - destruct (H o) as (u & -> & Su); [apply in_or_app; right; left; reflexivity|].
    assert (O1 : one_to_one (txns (h ++ l))) by (rewrite app_assoc, T in O; apply one_to_one_app in O; exact O).
    destruct (IH O1 (fun o J => H o (in_or_app _ _ _ (or_introl J)))) as [[A B] Ws]. clear IH.
    rewrite last_key_app. cbn [last_key]. replace (h ++ [Restart] ++ l ++ [NodeTxn u]) with ((h ++ [Restart] ++ l) ++ [NodeTxn u]) by (rewrite <- !app_assoc; reflexivity).
    rewrite run_app. set (n := run init (h ++ [Restart] ++ l)) in *. cbn [Keys_Model.run fold_left Keys_Model.step].
    assert (OT : alias u = alias t <-> nym u = nym t).
    { apply O; rewrite !T; cbn [txns]; [apply in_or_app; right; apply in_or_app; right; left; reflexivity|apply in_or_app; left; exact I]. }
    split.
    + unfold Keys_Model.on_txn. cbn [seen]. destruct (nym u =? nym t) eqn:E.
      * apply Nat.eqb_eq in E. pose proof (proj2 OT E) as Ea. rewrite E, Ws, (Su E). cbn [andb negb]. rewrite Ea. unfold set_seen. cbn [verif pub].
        destruct (verkey u) as [k|]; [|split; assumption].
        match goal with |- get (verif (init_other ?m _ _)) _ = _ /\ _ => destruct (other_get m (alias t) k (alias t) W) as [-> ->] end.
        rewrite Nat.eqb_refl. auto.
      * apply Nat.eqb_neq in E. assert (Ea : (alias u =? alias t) = false) by (apply Nat.eqb_neq; intros F; apply E, OT, F).
        assert (K : forall m k, get (verif m) (alias t) = Some (last_key (nym t) (nym t) l) /\ get (pub m) (alias t) = Some (conv (last_key (nym t) (nym t) l)) ->
          get (verif (init_other m (alias u) k)) (alias t) = Some (last_key (nym t) (nym t) l) /\ get (pub (init_other m (alias u) k)) (alias t) = Some (conv (last_key (nym t) (nym t) l))).
        { intros m k X. destruct (other_get m (alias u) k (alias t) W) as [-> ->]. rewrite Ea. exact X. }
        destruct (was (seen n) (nym u)) as [b|]; unfold set_seen; cbn [verif pub].
        -- destruct (match services u with Some s => s | None => b end && negb b); destruct (verkey u) as [k|]; try destruct (match services u with Some s => s | None => b end);
             repeat apply K; split; assumption.
        -- destruct (services u) as [[|]|]; repeat apply K; split; assumption.
    + rewrite seen_on_txn. cbn [was]. destruct (nym u =? nym t) eqn:E; [|exact Ws]. apply Nat.eqb_eq in E. rewrite E, Ws. unfold services_of. rewrite (Su E). reflexivity.
Qed.
(** but after a restart the key its identifier stands for is back *)
Theorem C105_new_key_refuted : forall os u k, one_to_one (txns os ++ [u]) -> validator false (nym u) (txns os ++ [u]) = true ->
  verkey u = Some k -> k <> nym u ->
  let n := run init (os ++ [NodeTxn u; Restart]) in get (verif n) (alias u) = Some (nym u) /\ get (verif n) (alias u) <> Some k.
Proof.
  intros os u k O V K N.
  assert (T : forall a b, txns (a ++ b) = txns a ++ txns b).
  { clear. induction a as [|[t|] a IH]; intros b; cbn; auto. rewrite IH. reflexivity. }
  destruct (C105_restart (os ++ [NodeTxn u]) u) as (A & _); rewrite ?T; cbn [txns]; auto.
  { apply in_or_app. right. left. reflexivity. }
  rewrite <- app_assoc in A. cbn [app] in A. cbn zeta. rewrite A. split; [reflexivity|congruence].
Qed.

(** what the running stack knows does not change with the ledger: a validator that was not known when the stack was started
    stays unknown to it, and a former one, or a former key, stays known *)
Theorem C105_loaded_refuted : forall os l, (forall o, In o l -> o <> Restart) -> loaded (run init (os ++ l)) = loaded (run init os).
Proof.
  intros os l H. rewrite run_app. generalize (run init os). induction l as [|o l IH]; intros n; [reflexivity|].
  cbn [Keys_Model.run fold_left]. fold (run (step n o) l). rewrite IH by (intros x J; apply H; right; exact J).
  destruct o as [t|]; [apply loaded_on_txn|]. elim (H Restart (or_introl eq_refl)). reflexivity.
Qed.
Lemma pub_stays n o a : get (pub n) a <> None -> get (pub (step n o)) a <> None.
Proof.
  assert (R : forall n b k, get (pub n) a <> None -> get (pub (init_remote n b k)) a <> None).
  { clear. intros n b k H. cbn. rewrite get_put. destruct (b =? a); [discriminate|exact H]. }
  assert (Q : forall n b k, get (pub n) a <> None -> get (pub (init_other n b k)) a <> None).
  { intros m b k H. unfold Keys_Model.init_other. destruct (b =? own); auto. }
  intros H. destruct o as [t|]; cbn [Keys_Model.step].
  - unfold Keys_Model.on_txn. cbn [seen]. destruct (was (seen n) (nym t)) as [b|]; unfold set_seen; cbn [pub].
    + destruct (match services t with Some s => s | None => b end && negb b); destruct (verkey t) as [k|]; try destruct (match services t with Some s => s | None => b end); auto.
    + destruct (services t) as [[|]|]; auto.
  - unfold Keys_Model.restart, start. cbn [pub]. generalize (node_keys (ledger n)). intros ks. revert n H.
    induction ks as [|p ks IH]; intros n H; cbn [fold_left]; auto.
Qed.
(** a key file stays for ever: who was a validator once, some key of theirs is loaded at every later start *)
Theorem C105_former_refuted : forall os l t, one_to_one (txns os) -> In t (txns os) -> validator false (nym t) (txns os) = true ->
  exists k ls, loaded (run init (os ++ [Restart] ++ l ++ [Restart])) = Some ls /\ get (pub (run init (os ++ [Restart] ++ l ++ [Restart]))) (alias t) = Some k /\ In k ls.
Proof.
  intros os l t O I V. destruct (C105_restart os t O I V) as (_ & B & _).
  rewrite !app_assoc, run_app. rewrite (run_app _ (os ++ [Restart]) l).
  set (n := run init (os ++ [Restart])) in *. cbn [Keys_Model.run fold_left Keys_Model.step].
  assert (H : get (pub (run n l)) (alias t) <> None).
  { assert (G : get (pub n) (alias t) <> None) by (rewrite B; discriminate). clearbody n. clear - G. revert n G.
    induction l as [|o l IH]; intros n G; [exact G|]. cbn [Keys_Model.run fold_left]. apply IH, pub_stays, G. }
  pose proof (pub_stays _ Restart _ H) as H'. cbn [Keys_Model.step] in H'. fold (run n l).
  destruct (get (pub (restart (run n l))) (alias t)) as [k|] eqn:G; [|congruence].
  exists k. eexists. split; [reflexivity|]. split; [reflexivity|]. eapply get_in. exact G.
Qed.
End Keys.

(** *** the authenticator is never asked *)
Lemma not_asked count : String.eqb asked (zap_address count) = false.
Proof.
  apply String.eqb_neq. unfold asked, zap_address. cbn [append]. intros E. repeat (injection E as E).
  assert (D : Nat.to_uint count = D0 (D1 Nil)).
  { destruct (Nat.to_uint count) as [|d|d|d|d|d|d|d|d|d|d]; cbn in E; try discriminate.
    injection E as E. destruct d as [|d|d|d|d|d|d|d|d|d|d]; cbn in E; try discriminate.
    injection E as E. destruct d; cbn in E; try discriminate. reflexivity. }
  pose proof (f_equal Nat.of_uint D) as C. rewrite Unsigned.of_to in C. cbn in C. subst count. discriminate D.
Qed.
(** the address of no authenticator is the one libzmq asks, so the stack lets everybody in, whatever keys are loaded *)
Theorem C105_authenticator_refuted : forall counts loaded k, lets_in (map zap_address counts) loaded k = true.
Proof.
  intros counts loaded k. unfold lets_in.
  assert (E : existsb (String.eqb asked) (map zap_address counts) = false).
  { induction counts as [|c l IH]; cbn [map existsb]; [reflexivity|]. rewrite not_asked. exact IH. }
  rewrite E. reflexivity.
Qed.
(** with an authenticator at that address, a restricted stack lets in exactly who has a loaded key *)
Theorem C105_authenticator_partial : forall bound l k, In asked bound -> (lets_in bound (Some l) k = true <-> In k l).
Proof.
  intros bound l k I. unfold lets_in.
  assert (E : existsb (String.eqb asked) bound = true) by (apply existsb_exists; exists asked; split; [exact I|apply String.eqb_refl]).
  rewrite E. rewrite existsb_exists. split.
  - intros (x & J & F). apply Nat.eqb_eq in F. subst. exact J.
  - intros J. exists k. split; [exact J|apply Nat.eqb_refl].
Qed.
Example C105_authenticator_ex : zap_address 1 = "inproc://zeromq.zap.1"%string /\ lets_in [zap_address 1; zap_address 2] (Some [5]) 7 = true /\
  lets_in [asked] (Some [5]) 7 = false /\ lets_in [asked] (Some [5]) 5 = true.
Proof. repeat split. Qed.

(** node 1 is this one; 2 and 3 are validators at the start, 3 is demoted, 4 comes later, 2 gets a new key *)
Definition ex_ops : list op :=
  [NodeTxn (Txn 1 11 None (Some true)); NodeTxn (Txn 2 12 None (Some true)); NodeTxn (Txn 3 13 None (Some true)); Restart;
   NodeTxn (Txn 3 13 None (Some false)); NodeTxn (Txn 4 14 None (Some true))].
Example C105_ex :
  let n := run (fun k => k + 100) 1 init ex_ops in
  get (verif n) 4 = Some 14 /\ get (pub n) 2 = Some 112 /\ loaded n = Some [112; 113; 111] /\
  loaded (run (fun k => k + 100) 1 n [Restart]) = Some [112; 113; 111; 114].
Proof. vm_compute. repeat split. Qed.
Example C105_hyps_ex : one_to_one (txns ex_ops) /\ no_keys (txns ex_ops) /\ validator false 12 (txns ex_ops) = true /\ validator false 13 (txns ex_ops) = false.
Proof.
  repeat split; cbn in *.
  - intros E. cbn in H, H0. repeat (destruct H as [<-|H]; [repeat (destruct H0 as [<-|H0]; [cbn in *; congruence|]); contradiction|]). contradiction.
  - intros E. cbn in H, H0. repeat (destruct H as [<-|H]; [repeat (destruct H0 as [<-|H0]; [cbn in *; congruence|]); contradiction|]). contradiction.
  - intros t I. cbn in I. repeat (destruct I as [<-|I]; [reflexivity|]). contradiction.
Qed.
Example C105_new_key_ex :
  let n := run (fun k => k + 100) 1 init (ex_ops ++ [NodeTxn (Txn 2 12 (Some 22) None)]) in
  get (verif n) 2 = Some 22 /\ get (verif (run (fun k => k + 100) 1 n [Restart])) 2 = Some 12.
Proof. vm_compute. repeat split. Qed.

(** from the start in [ex_ops] on: 2 is given two keys, 4 comes *)
Example C105_since_start_ex :
  let l := [NodeTxn (Txn 2 12 (Some 22) None); NodeTxn (Txn 4 14 None (Some true)); NodeTxn (Txn 2 12 (Some 32) None); NodeTxn (Txn 2 12 None None)] in
  last_key 12 12 l = 32 /\ get (verif (run (fun k => k + 100) 1 init (firstn 3 ex_ops ++ [Restart] ++ l))) 2 = Some 32 /\
  (forall o, In o l -> exists u, o = NodeTxn u /\ (nym u = 12 -> services u = None)).
Proof.
  split; [reflexivity|]. split; [reflexivity|]. intros o I. cbn in I.
  repeat (destruct I as [<-|I]; [eexists; split; [reflexivity|cbn; congruence]|]). contradiction.
Qed.

Print Assumptions C105_since_start_partial.
Print Assumptions C105_restart.
Print Assumptions C105_on_disk_partial.
Print Assumptions C105_new_key_refuted.
Print Assumptions C105_former_refuted.
Print Assumptions C105_authenticator_refuted.
