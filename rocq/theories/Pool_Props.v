(** C57: nodes of the pool share no names, addresses or owners.  C59: the registry of nodes is what the
    pool ledger says. *)
From Coq Require Import List Arith Bool Lia.
From Verif Require Import Pool_Model Pool_Spec Pool_Proofs.
Import ListNotations.

(** *** C57: in every state of every history no two nodes have the same name, node address or client
    address, and a node's two addresses differ *)
Theorem C57_distinct : forall genesis self es st, genesis_ok genesis -> In st (states (run self (init genesis) es)) -> distinct st /\ addressed st.
Proof.
  intros g self es st GO J. pose proof (NI_run (fun _ => True) self es (init g) (genesis_NI g GO) (fun _ _ _ _ => Logic.I)) as NN.
  destruct (NI_states _ _ st NN J) as (ts & A & -> & _). exact (allv_OK ts [] A OK_nil).
Qed.
(** *** and, if no request carries an `identifier` in its data, no two have the same owner *)
Theorem C57_owners_partial : forall genesis self es st, genesis_ok genesis -> plain es -> In st (states (run self (init genesis) es)) -> owners_distinct st.
Proof.
  intros g self es st GO P J.
  assert (NN : NI (fun x => d_ident (x_data x) = None) (run self (init g) es)).
  { apply NI_run; [exact (genesis_NI_plain g GO)|]. intros e x JE JX. destruct e as [rs| | |rs|]; cbn [reqs_of] in JX; try destruct JX; apply (P rs x); auto. }
  destruct (NI_states _ _ st NN J) as (ts & A & -> & Q & _). apply (allv_owners ts [] A Q). intros m1 e1 m2 e2 E. discriminate E.
Qed.
Lemma stable_gen : forall Q genesis self es es' m e st, NI Q (init genesis) -> (forall ev x, In ev (es ++ es') -> In x (reqs_of ev) -> Q x) ->
  get m (n_state (run self (init genesis) es)) = Some e -> In st (states (run self (init genesis) (es ++ es'))) ->
  exists ts e', (forall x, In x ts -> Q x) /\ get m st = Some e' /\ e_alias e' = e_alias e /\ ((forall x, In x ts -> d_ident (x_data x) = None) -> e_ident e' = e_ident e).
Proof.
  intros Q g self es es' m e st N0 P G J.
  assert (N1 : NI Q (run self (init g) es)) by (apply NI_run; [exact N0 | intros ev x JE; apply P; apply in_or_app; left; exact JE]). pose proof (NI_run Q self (es ++ es') (init g) N0 P) as N2.
  destruct N1 as (S1 & A1 & _). destruct (NI_states _ _ st N2 J) as (ts & A & -> & QT & r & E).
  unfold run in E. rewrite fold_left_app in E. fold (run self (init g) es) in E. fold (run self (run self (init g) es) es') in E.
  destruct (ledger_grows self es' (run self (init g) es)) as [r' E']. rewrite E' in E. rewrite <- app_assoc in E. set (L1 := n_ledger (run self (init g) es)) in *.
  rewrite E in A. apply allv_app in A as [AA AB]. rewrite <- S1 in AB. destruct (allv_alias _ _ m e AB G) as (e' & G' & EA & EI). exists (r' ++ r), e'. rewrite E, final_app, <- S1.
  split; [intros x JX; apply QT; rewrite E; apply in_or_app; right; exact JX | auto].
Qed.
(** *** C57: a committed node keeps its existence and its name, whatever happens *)
Theorem C57_stable : forall genesis self es es' m e st, genesis_ok genesis -> get m (n_state (run self (init genesis) es)) = Some e ->
  In st (states (run self (init genesis) (es ++ es'))) -> exists e', get m st = Some e' /\ e_alias e' = e_alias e.
Proof.
  intros g self es es' m e st GO G J. destruct (stable_gen (fun _ => True) g self es es' m e st (genesis_NI g GO) (fun _ _ _ _ => Logic.I) G J) as (ts & e' & _ & G' & EA & _). exists e'. auto.
Qed.
(** *** and its owner, if no request carries an `identifier` in its data *)
Theorem C57_owner_stable_partial : forall genesis self es es' m e st, genesis_ok genesis -> plain (es ++ es') -> get m (n_state (run self (init genesis) es)) = Some e ->
  In st (states (run self (init genesis) (es ++ es'))) -> exists e', get m st = Some e' /\ e_ident e' = e_ident e.
Proof.
  intros g self es es' m e st GO P G J.
  destruct (stable_gen (fun x => d_ident (x_data x) = None) g self es es' m e st (genesis_NI_plain g GO)) with (3 := J) as (ts & e' & Q & G' & _ & EI); [|exact G|exists e'; split; [exact G' | exact (EI Q)]].
  intros ev x JE JX. destruct ev as [rs| | |rs|]; cbn [reqs_of] in JX; try destruct JX; apply (P rs x); auto.
Qed.
(** *** C57: a transaction changes one node, and of that only what it gives *)
Theorem C57_update : forall st x m, get m (update_state st x) = if m =? x_nym x then Some (match get m st with
  | Some e => mkE (match d_ident (x_data x) with Some i => i | None => e_ident e end) (d_alias (x_data x)) (orelse (d_ha (x_data x)) (e_ha e)) (orelse (d_serv (x_data x)) (e_serv e)) (orelse (d_bls (x_data x)) (e_bls e))
  | None => fresh (x_from x) (x_data x) end) else get m st.
Proof. intros st x m. rewrite get_update. destruct (Nat.eqb_spec m (x_nym x)) as [->|]; [unfold written, merge; destruct (get (x_nym x) st); reflexivity | reflexivity]. Qed.

(** *** C59: if each node's first transaction says whether it is a validator, then after every history
    (batches applied, committed, rejected; catch-ups; restarts at any point) no exception was raised, the
    registry is the one a restart would read from the ledger, and it holds exactly the validators with the
    last addresses given *)
Theorem C59_registry_partial : forall genesis self es, genesis_ok genesis -> let n := run self (init genesis) es in announced (n_ledger n) ->
  exists g g', n_reg n = Some g /\ load (n_ledger n) = Some g' /\ same_registry g g' /\ forall alias h, get alias (g_reg g) = Some h <-> registered (n_ledger n) alias h.
Proof.
  intros gen self es GO n AN. pose proof (NI_run (fun _ => True) self es (init gen) (genesis_NI gen GO) (fun _ _ _ _ => Logic.I)) as (S & A & _). fold n in S, A.
  destruct (GI_run self es (init gen) (genesis_NI gen GO) (init_GI gen GO) AN) as (g & EG & RG & LG). fold n in EG, RG, LG.
  pose proof (allv_OK _ [] A OK_nil) as O. destruct (load_R (n_ledger n) A (proj2 O)) as (g' & EG' & RG' & LG'). rewrite S in RG.
  exists g, g'. split; [exact EG|]. split; [exact EG'|]. split; [apply (R_same (final (n_ledger n) []) g g' O RG RG'); congruence|].
  intros alias h. rewrite (registered_iff _ _ _ A). destruct RG as (_ & _ & R3 & R4). split.
  - intros E. destruct (R4 alias) as (m & e & G & EA & SE); [congruence|]. destruct (R3 m e G SE) as (h' & H1 & [H2|(? & X & _)]); [|discriminate X]. exists m, e. rewrite EA in H1. repeat split; congruence.
  - intros (m & e & G & EA & SE & H). destruct (R3 m e G SE) as (h' & H1 & [H2|(? & X & _)]); [|discriminate X]. congruence.
Qed.
(** *** C59: nodes with the same pool ledger, whatever their histories, have the same validators in the
    same order *)
Theorem C59_agree_partial : forall genesis self1 self2 es1 es2, genesis_ok genesis ->
  let n1 := run self1 (init genesis) es1 in let n2 := run self2 (init genesis) es2 in
  n_ledger n1 = n_ledger n2 -> announced (n_ledger n1) ->
  exists g1 g2, n_reg n1 = Some g1 /\ n_reg n2 = Some g2 /\ same_registry g1 g2 /\ names_by_rank g1 = names_by_rank g2.
Proof.
  intros gen self1 self2 es1 es2 GO n1 n2 E AN. destruct (C59_registry_partial gen self1 es1 GO AN) as (g1 & g1' & E1 & L1 & (I1 & S1 & R1) & _). fold n1 in E1, L1.
  assert (AN2 : announced (n_ledger n2)) by (rewrite <- E; exact AN).
  destruct (C59_registry_partial gen self2 es2 GO AN2) as (g2 & g2' & E2 & L2 & (I2 & S2 & R2) & _). fold n2 in E2, L2. exists g1, g2. split; [exact E1|]. split; [exact E2|].
  rewrite <- E, L1 in L2. injection L2 as <-.
  assert (SR : same_registry g1 g2) by (split; [congruence|]; split; [intros m; rewrite S1, S2; reflexivity | intros a; rewrite R1, R2; reflexivity]).
  split; [exact SR|]. destruct SR as (II & _ & RR). unfold names_by_rank. rewrite II. apply filter_ext. intros a. rewrite RR. reflexivity.
Qed.
(** *** C59: nodes keep their order: those known before come first, in the order they had *)
Theorem C59_order_partial : forall genesis self es es', genesis_ok genesis -> announced (n_ledger (run self (init genesis) (es ++ es'))) ->
  exists g g' r, n_reg (run self (init genesis) es) = Some g /\ n_reg (run self (init genesis) (es ++ es')) = Some g' /\ g_ids g' = g_ids g ++ r.
Proof.
  intros gen self es es' GO AN. set (n := run self (init gen) es).
  assert (EN : run self (init gen) (es ++ es') = run self n es') by (unfold run; rewrite fold_left_app; reflexivity). rewrite EN in *.
  destruct (ledger_grows self es' n) as [l E].
  assert (AN1 : announced (n_ledger n)) by (rewrite E in AN; exact (announced_prefix _ _ AN)).
  destruct (GI_run self es (init gen) (genesis_NI gen GO) (init_GI gen GO) AN1) as (g & EG & RG & LG). fold n in EG, LG.
  assert (AN2 : announced (n_ledger (run self (init gen) (es ++ es')))) by (rewrite EN; exact AN).
  destruct (GI_run self (es ++ es') (init gen) (genesis_NI gen GO) (init_GI gen GO) AN2) as (g' & EG' & RG' & LG'). rewrite EN in EG', LG'. rewrite E in LG'.
  assert (K : forall l ids ids', fold_left (fun o x => match o with Some ids => set_ids ids (x_nym x) (d_alias (x_data x)) | None => None end) l (Some ids) = Some ids' -> exists r, ids' = ids ++ r).
  { clear. induction l as [|x l IH]; intros ids ids' H; cbn [fold_left] in H; [injection H as <-; exists []; symmetry; apply app_nil_r|].
    destruct (set_ids ids (x_nym x) (d_alias (x_data x))) as [ids0|] eqn:S.
    - destruct (IH _ _ H) as [r ->]. unfold set_ids in S. destruct (get (x_nym x) ids) as [a|] eqn:G.
      + destruct (a =? d_alias (x_data x)); [injection S as <-; exists r; reflexivity | discriminate S].
      + injection S as <-. rewrite set_new by exact G. rewrite <- app_assoc. eexists. reflexivity.
    - exfalso. clear - H. revert H. induction l as [|y l IH]; cbn [fold_left]; [discriminate | exact IH]. }
  unfold load_ids in LG', LG. rewrite fold_left_app in LG'. fold (load_ids (n_ledger n)) in LG'. unfold load_ids in LG'. rewrite LG in LG'. destruct (K _ _ _ LG') as [r ER].
  exists g, g', r. auto.
Qed.

(** ** Examples. A genesis of two validators (nyms 1, 2; stewards 11, 12; aliases 21, 22). *)
Definition dat (alias : nat) (ha : option (nat * nat)) (serv : option bool) : data := mkData alias ha serv None None.
Definition gen2 : list txn := [mkTxn 11 1 (dat 21 (Some (31, 41)) (Some true)); mkTxn 12 2 (dat 22 (Some (32, 42)) (Some true))].
Lemma gen2_ok : genesis_ok gen2.
Proof.
  unfold genesis_ok, gen2. cbn. repeat (split; [repeat constructor; cbn; intuition congruence|]). intros x [<-|[<-|[]]]; cbn; (split; [reflexivity|]); do 2 eexists; (split; [reflexivity | discriminate]).
Qed.
(** node 3 is added by steward 13; 1 is demoted, moved, and promoted again with two transactions in one
    batch; a request for an address in use is refused; a restart; a catch-up with a further node *)
Definition es_x : list event :=
  [EBatch [mkTxn 13 3 (dat 23 (Some (33, 43)) (Some true)); mkTxn 14 4 (dat 24 (Some (31, 44)) (Some true))]; EBatch [mkTxn 11 1 (dat 21 None (Some false))]; ECommit; ECommit;
   EBatch [mkTxn 11 1 (dat 21 (Some (51, 61)) None)]; EReject; ERestart;
   EBatch [mkTxn 11 1 (dat 21 None (Some true)); mkTxn 11 1 (dat 21 (Some (52, 62)) None)]; ECommit; ECaught [mkTxn 15 5 (dat 25 (Some (35, 45)) (Some false)); mkTxn 15 5 (dat 25 None (Some true))]].
Definition n_x := run 21 (init gen2) es_x.
Example C59_ex : length (n_ledger n_x) = 8 /\ option_map names_by_rank (n_reg n_x) = Some [21; 22; 23; 25] /\
  (match n_reg n_x with Some g => get 21 (g_reg g) = Some (52, 62) /\ get 23 (g_reg g) = Some (33, 43) /\ get 24 (g_reg g) = None | None => False end).
Proof. vm_compute. repeat split. Qed.
Fixpoint announcedb (seen : list nat) (L : list txn) : bool :=
  match L with [] => true | x :: r => (existsb (Nat.eqb (x_nym x)) seen || match d_serv (x_data x) with Some _ => true | None => false end) && announcedb (x_nym x :: seen) r end.
Lemma announcedb_ok : forall L, announcedb [] L = true -> announced L.
Proof.
  intros L B.
  assert (G : forall L seen, announcedb seen L = true -> forall l1 x l2, L = l1 ++ x :: l2 -> (forall y, In y l1 -> x_nym y <> x_nym x) -> ~ In (x_nym x) seen -> d_serv (x_data x) <> None).
  { clear. induction L as [|z L IH]; intros seen B l1 x l2 E N NS; [destruct l1; discriminate E|]. cbn [announcedb] in B. apply andb_true_iff in B as [B1 B2]. destruct l1 as [|y l1].
    - injection E as -> ->. apply orb_true_iff in B1 as [B1|B1]; [|destruct (d_serv (x_data x)); [discriminate | discriminate B1]].
      apply existsb_exists in B1 as (k & J & K). apply Nat.eqb_eq in K. subst k. contradiction.
    - injection E as -> ->. apply (IH (x_nym y :: seen) B2 l1 x l2 eq_refl); [intros w J; apply N; right; exact J|]. intros [K|K]; [exact (N y (or_introl eq_refl) K) | contradiction]. }
  intros l1 x l2 E N. exact (G L [] B l1 x l2 E N (fun f => f)).
Qed.
Example C59_hypotheses_ex : genesis_ok gen2 /\ announced (n_ledger (run 21 (init gen2) es_x)).
Proof. split; [exact gen2_ok | apply announcedb_ok; vm_compute; reflexivity]. Qed.
Example C59_registry_ex : let n := run 21 (init gen2) es_x in
  exists g g', n_reg n = Some g /\ load (n_ledger n) = Some g' /\ same_registry g g' /\ forall alias h, get alias (g_reg g) = Some h <-> registered (n_ledger n) alias h.
Proof. exact (C59_registry_partial gen2 21 es_x gen2_ok (proj2 C59_hypotheses_ex)). Qed.
(** another node that only catches up reaches the same ledger *)
Example C59_agree_ex : n_ledger (run 22 (init gen2) [ECaught (skipn 2 (n_ledger n_x))]) = n_ledger n_x.
Proof. vm_compute. reflexivity. Qed.
Example C57_ex : map (fun q => (fst q, e_alias (snd q), e_ident (snd q))) (n_state n_x) = [(1, 21, 11); (2, 22, 12); (3, 23, 13); (5, 25, 15)].
Proof. vm_compute. reflexivity. Qed.
Example C57_plain_ex : plain es_x.
Proof. intros rs x J K. destruct J as [J|J]; cbn in J; repeat (destruct J as [J|J]; [try discriminate J; injection J as <-; cbn in K; repeat (destruct K as [K|K]; [subst x; reflexivity|]); destruct K|]); destruct J. Qed.

(** ** Refutations *)
(** *** the owner of a node is replaced by an `identifier` in the data, after which the former owner may
    add a second node, and a steward may own two *)
Theorem C57_owner_refuted : exists es, let n := run 21 (init gen2) es in
  get 1 (n_state (init gen2)) = Some (mkE 11 21 (Some (31, 41)) (Some true) None) /\
  option_map e_ident (get 1 (n_state n)) = Some 12 /\ option_map e_ident (get 2 (n_state n)) = Some 12 /\ option_map e_ident (get 3 (n_state n)) = Some 11.
Proof. exists [EBatch [mkTxn 11 1 (mkData 21 None None None (Some 12)); mkTxn 11 3 (dat 23 (Some (33, 43)) None)]; ECommit]. vm_compute. repeat split. Qed.
(** *** anybody may add a node, and change or demote anybody's: the author is not looked at *)
Theorem C57_anyone_refuted : forall author, author <> 11 -> author <> 12 ->
  valid (n_state (init gen2)) (mkTxn author 1 (dat 21 None (Some false))) = true /\
  valid (n_state (init gen2)) (mkTxn author 1 (dat 21 (Some (51, 61)) None)) = true /\
  valid (n_state (init gen2)) (mkTxn author 3 (dat 23 (Some (33, 43)) (Some true))) = true.
Proof.
  intros a N1 N2. split; [reflexivity|]. split; [reflexivity|]. unfold valid. cbn. destruct a as [|[|[|[|[|[|[|[|[|[|[|[|[|a]]]]]]]]]]]]]; try reflexivity; congruence.
Qed.
Theorem C57_demoted_refuted : forall author, let n := run 22 (init gen2) [EBatch [mkTxn author 1 (dat 21 None (Some false))]; ECommit] in option_map names_by_rank (n_reg n) = Some [22].
Proof. intros author. reflexivity. Qed.
(** *** a node may take the client address of another one as its node address, and another one's BLS key *)
Theorem C57_shared_refuted : let n := run 21 (init gen2) [EBatch [mkTxn 11 1 (mkData 21 None None (Some 7) None); mkTxn 13 3 (mkData 23 (Some (41, 43)) (Some true) (Some 7) None)]; ECommit] in
  match get 1 (n_state n), get 3 (n_state n) with
  | Some e1, Some e3 => client_ha (e_ha e1) = node_ha (e_ha e3) /\ e_bls e1 = e_bls e3 /\ e_bls e1 = Some 7
  | _, _ => False
  end.
Proof. vm_compute. repeat split. Qed.
(** *** a node added without services: the node that has restarted since raises a KeyError when it is
    made a validator, the one that has not goes on; both have the same ledger *)
Theorem C59_restart_refuted : exists add promote, let run1 := run 21 (init gen2) [EBatch [add]; ECommit; EBatch [promote]; ECommit] in
  let run2 := run 21 (init gen2) [EBatch [add]; ECommit; ERestart; EBatch [promote]; ECommit] in
  n_ledger run1 = n_ledger run2 /\ n_state run1 = n_state run2 /\ option_map names_by_rank (n_reg run1) = Some [21; 22; 23] /\ n_reg run2 = None.
Proof. exists (mkTxn 13 3 (dat 23 (Some (33, 43)) None)), (mkTxn 13 3 (dat 23 None (Some true))). vm_compute. repeat split. Qed.

Print Assumptions C57_distinct.
Print Assumptions C57_owners_partial.
Print Assumptions C57_stable.
Print Assumptions C57_owner_stable_partial.
Print Assumptions C57_update.
Print Assumptions C57_owner_refuted.
Print Assumptions C57_anyone_refuted.
Print Assumptions C57_demoted_refuted.
Print Assumptions C57_shared_refuted.
Print Assumptions C59_registry_partial.
Print Assumptions C59_agree_partial.
Print Assumptions C59_order_partial.
Print Assumptions C59_restart_refuted.
