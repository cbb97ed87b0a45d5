(** Properties C52 and C53: the registry of validators, in memory and reloaded. *)
From Coq Require Import List Arith NArith ZArith Bool Lia.
From Verif Require Import Base Dict Merkle_Model Merkle_Props Ledger_Model Ledger_Spec Ledger_Props Tracker_Model Audit_Model Audit_Spec Audit_Proofs Audit_Props
  Primary_Model NodeReg_Model NodeReg_Spec NodeReg_Proofs.
Import ListNotations.
Local Open Scope res_scope.

(** *** C52: the registry in memory *)

(** A handler with nothing applied: what [on_catchup_finished] leaves (C53). *)
Definition started (s : nreg) (reg0 : list nat) (view0 : nat) (bov0 : dict (list nat)) : Prop :=
  committed_node_reg s = reg0 /\ uncommitted_node_reg s = reg0 /\ n_unc s <> n_com s /\
  n_unc s < length (n_heap s) /\ n_com s < length (n_heap s) /\ n_queue s = [] /\
  n_cbov s = bov0 /\ n_ubov s = bov0 /\ n_cview s = view0 /\ n_uview s = view0 /\ NoDup reg0 /\
  (exists r, bov0 = [(view0, r)] \/ exists v' r', v' < view0 /\ bov0 = [(v', r'); (view0, r)]).

(** The registries written into the batches of a history, one for each batch applied. *)
Fixpoint written (reg0 : list nat) (view0 : nat) (q : nspec) (os : list nop) : list (list nat) :=
  match os with
  | [] => []
  | o :: os' =>
    match nspec1 view0 q o with
    | None => []
    | Some q' => match o with
                 | NApplied _ _ _ => registry reg0 (ns_done q' ++ ns_pend q') :: written reg0 view0 q' os'
                 | _ => written reg0 view0 q' os'
                 end
    end
  end.

Definition none_yet : nspec := mkNS [] [] [] false.

Lemma started_start s reg0 view0 bov0 : started s reg0 view0 bov0 -> start_ok reg0 view0 bov0.
Proof.
  intros (_ & _ & _ & _ & _ & _ & _ & _ & _ & _ & ND & r & B). split; [exact ND|].
  destruct B as [->|(v' & r' & L & ->)]; (split; [cbn; lia|]); (split; [discriminate|]); cbn; intros k Ik; repeat (destruct Ik as [<-|Ik]; [lia|]); destruct Ik.
Qed.
Lemma started_ni s reg0 view0 bov0 : started s reg0 view0 bov0 -> NI reg0 view0 bov0 s none_yet.
Proof.
  intros ST. assert (SO := started_start _ _ _ _ ST). destruct ST as (E1 & E2 & E3 & E4 & E5 & E6 & E7 & E8 & E9 & E10 & _).
  constructor; cbn [none_yet ns_done ns_pend ns_open ns_shared app registry fold_left recs view_after entered mono]; try assumption; try (rewrite ?E6; cbn; auto; fail).
  - rewrite E6. intros ? ? [].
  - rewrite app_nil_r, last_two_short; [exact E7|]. apply SO.
  - rewrite app_nil_r. congruence.
Qed.

Lemma ni_run reg0 view0 bov0 : start_ok reg0 view0 bov0 -> forall os s q q', NI reg0 view0 bov0 s q -> nspecs view0 q os = Some q' ->
  careful reg0 view0 q os -> Forall op_ok os -> exists s', nrun s os = Ok (s', written reg0 view0 q os) /\ NI reg0 view0 bov0 s' q'.
Proof.
  intros SO. induction os as [|o os IH]; intros s q q' I E CA OK.
  - injection E as <-. exists s. split; [reflexivity|exact I].
  - inversion OK as [|? ? O1 O2]; subst. cbn [nspecs] in E. cbn [careful] in CA. destruct CA as [C1 C2]. cbn [nrun written].
    destruct (nspec1 view0 q o) as [q1|] eqn:E1; [|discriminate]. destruct o as [o|v orig rep| |v orig]; cbn [nspec1] in E1; cbn [nstep].
    + injection E1 as <-. destruct (IH _ _ _ (ni_req _ _ _ _ _ _ SO I C1) E C2 O2) as (s' & R & I'). cbn [bind fst snd]. rewrite R. exists s'. auto.
    + destruct (Nat.leb_spec (view_after view0 (ns_done q ++ ns_pend q)) (batch_view v orig)) as [L|]; [|discriminate]. injection E1 as <-.
      destruct (post_batch_applied s v orig rep) as [s1 reg] eqn:EA. destruct (ni_applied _ _ _ _ _ _ _ _ _ _ SO I EA O1 L) as [I1 ->].
      destruct (IH _ _ _ I1 E C2 O2) as (s' & R & I'). cbn [bind fst snd]. rewrite R. exists s'. auto.
    + destruct (ns_pend q) as [|c P0] eqn:EP; [discriminate|]. injection E1 as <-.
      assert (EP' : ns_pend q = removelast (c :: P0) ++ [last (c :: P0) c]) by (rewrite <- app_removelast_last; [exact EP|discriminate]).
      destruct (ni_rejected _ _ _ _ _ _ _ SO I EP') as (s1 & R1 & I1). rewrite R1. cbn [bind fst snd]. rewrite EP in I1.
      destruct (IH _ _ _ I1 E C2 O2) as (s' & R & I'). rewrite R. exists s'. auto.
    + destruct (ns_pend q) as [|c P0] eqn:EP; [discriminate|]. destruct (Nat.eqb_spec (batch_view v orig) (nb_view c)) as [EV|]; [|discriminate]. injection E1 as <-.
      destruct (ni_commit _ _ _ _ _ _ _ _ _ SO I EP EV) as (s1 & R1 & I1 & _). rewrite R1. cbn [bind fst snd].
      destruct (IH _ _ _ I1 E C2 O2) as (s' & R & I'). rewrite R. exists s'. auto.
Qed.

Lemma last_last_two {V} (l : list V) d : l <> [] -> last (last_two l) d = last l d.
Proof.
  intros NE. unfold last_two. transitivity (last (firstn (length l - 2) l ++ skipn (length l - 2) l) d); [|rewrite firstn_skipn; reflexivity].
  assert (K : skipn (length l - 2) l <> []).
  { intros C. apply (f_equal (@length V)) in C. rewrite skipn_length in C. destruct l; [congruence|]. cbn [length] in C. lia. }
  destruct (skipn (length l - 2) l) as [|x k _] using rev_ind; [congruence|]. rewrite app_assoc, !last_last. reflexivity.
Qed.
Lemma rev_last {V} (l : list V) d : l <> [] -> exists r, rev l = last l d :: r.
Proof. intros NE. destruct l as [|x l _] using rev_ind; [congruence|]. rewrite rev_app_distr, last_last. eexists. reflexivity. Qed.

(** In every careful history no call raises, the committed, the uncommitted and the written
    registries are those the batches determine, and the registry of the current view is that after
    the last batch of earlier views. *)
Theorem C52_registry_partial : forall s reg0 view0 bov0 os q, started s reg0 view0 bov0 ->
  nspecs view0 none_yet os = Some q -> careful reg0 view0 none_yet os -> Forall op_ok os ->
  let committed := registry reg0 (ns_done q) in
  exists s', nrun s os = Ok (s', written reg0 view0 none_yet os) /\
    committed_node_reg s' = committed /\
    uncommitted_node_reg s' = fold_left changed (ns_open q) (registry reg0 (ns_done q ++ ns_pend q)) /\
    n_cbov s' = last_two (bov0 ++ entered reg0 view0 (ns_done q)) /\
    n_ubov s' = n_cbov s' ++ entered committed (view_after view0 (ns_done q)) (ns_pend q) /\
    active_node_reg s' = snd (last (bov0 ++ entered reg0 view0 (ns_done q ++ ns_pend q)) (0, [])).
Proof.
  intros s reg0 view0 bov0 os q ST E CA OK committed. assert (SO := started_start _ _ _ _ ST).
  destruct (ni_run _ _ _ SO os s none_yet q (started_ni _ _ _ _ ST) E CA OK) as (s' & R & I). exists s'. split; [exact R|].
  destruct I. split; [exact i_com|]. split; [exact i_unc|]. split; [exact i_cbov|]. split; [rewrite <- i_cview; exact i_ubov|].
  unfold active_node_reg.
  assert (NE : bov0 ++ entered reg0 view0 (ns_done q) <> []) by (destruct SO as (_ & _ & NE & _); destruct bov0; [congruence|discriminate]).
  assert (NL : n_cbov s' <> []).
  { rewrite i_cbov. intros C. apply (f_equal (@length _)) in C. unfold last_two in C. rewrite skipn_length in C.
    destruct (bov0 ++ entered reg0 view0 (ns_done q)); [congruence|]. cbn [length] in C. lia. }
  assert (LE : last (n_ubov s') (0, []) = last (bov0 ++ entered reg0 view0 (ns_done q ++ ns_pend q)) (0, [])).
  { rewrite i_ubov, i_cview, entered_app, app_assoc. destruct (entered (registry reg0 (ns_done q)) (view_after view0 (ns_done q)) (ns_pend q)) as [|x k _] using rev_ind.
    - rewrite !app_nil_r, i_cbov. apply last_last_two, NE.
    - rewrite !app_assoc, !last_last. reflexivity. }
  destruct (rev_last (n_ubov s') (0, [])) as [r ->]; [rewrite i_ubov; destruct (n_cbov s'); [congruence|discriminate]|].
  rewrite <- LE. destruct (last (n_ubov s') (0, [])). reflexivity.
Qed.

(** A commit asks for a view change exactly when it changes the number of validators. *)
Theorem C52_votes_partial : forall s reg0 view0 bov0 os q b rest v orig, started s reg0 view0 bov0 ->
  nspecs view0 none_yet os = Some q -> careful reg0 view0 none_yet os -> Forall op_ok os ->
  ns_pend q = b :: rest -> batch_view v orig = nb_view b ->
  exists s1 s2 w, nrun s os = Ok (s1, w) /\ commit_batch s1 v orig = Ok s2 /\
    n_votes s2 = n_votes s1 ++ (if length (registry reg0 (ns_done q)) =? length (registry reg0 (ns_done q ++ [b])) then [] else [nb_view b + 1]).
Proof.
  intros s reg0 view0 bov0 os q b rest v orig ST E CA OK EP EV. assert (SO := started_start _ _ _ _ ST).
  destruct (ni_run _ _ _ SO os s none_yet q (started_ni _ _ _ _ ST) E CA OK) as (s1 & R & I).
  destruct (ni_commit _ _ _ _ _ _ _ _ _ SO I EP EV) as (s2 & R2 & _ & V2). exists s1, s2, (written reg0 view0 none_yet os). auto.
Qed.

(** *** The primary of the next view *)
Lemma entered_last reg0 view0 r0 D : exists pre r, (view0, r0) :: entered reg0 view0 D = pre ++ [(view_after view0 D, r)] /\
  forall k, In k (map fst pre) -> k < view_after view0 D.
Proof.
  induction D as [|b D IH] using rev_ind; [exists [], r0; split; [reflexivity|intros k []]|].
  destruct IH as (pre & r & E & K). rewrite entered_app, view_after_app.
  change (view_after (view_after view0 D) [b]) with (Nat.max (view_after view0 D) (nb_view b)). cbn [entered].
  destruct (Nat.ltb_spec (view_after view0 D) (nb_view b)).
  - rewrite Nat.max_r by lia. exists ((view0, r0) :: entered reg0 view0 D), (registry reg0 D). split; [reflexivity|].
    rewrite E, map_app. cbn. intros k Ik. apply in_app_iff in Ik as [Ik|[<-|[]]]; [apply K in Ik; lia|lia].
  - rewrite Nat.max_l by lia. exists pre, r. rewrite app_nil_r. split; [exact E|exact K].
Qed.
Lemma get_app_last {V} k (v : V) d : ~ In k (map fst d) -> get k (d ++ [(k, v)]) = Some v.
Proof. intros N. apply get_last_key, N. Qed.

(** Whatever part of the current view's batches a node has committed, it takes the primary of every
    later view from the registry after the last batch of the views before the current one. *)
Theorem C52_next_primary_partial : forall s reg0 view0 bov0 os q w, started s reg0 view0 bov0 ->
  nspecs view0 none_yet os = Some q -> careful reg0 view0 none_yet os -> Forall op_ok os ->
  view_after view0 (ns_done q) < w ->
  exists s' outs, nrun s os = Ok (s', outs) /\
    do_select_master_primary w (fun v => get v (n_cbov s')) = pick (snd (last (bov0 ++ entered reg0 view0 (ns_done q)) (0, []))) w.
Proof.
  intros s reg0 view0 bov0 os q w ST E CA OK LW. assert (SO := started_start _ _ _ _ ST).
  destruct (ni_run _ _ _ SO os s none_yet q (started_ni _ _ _ _ ST) E CA OK) as (s' & R & I). exists s', (written reg0 view0 none_yet os). split; [exact R|].
  destruct I. rewrite i_cbov. set (cv := view_after view0 (ns_done q)) in *.
  assert (XL : exists pre r, bov0 ++ entered reg0 view0 (ns_done q) = pre ++ [(cv, r)] /\ forall k, In k (map fst pre) -> k < cv).
  { destruct ST as (_ & _ & _ & _ & _ & _ & _ & _ & _ & _ & _ & r0 & B). destruct (entered_last reg0 view0 r0 (ns_done q)) as (pre & r & EL & K). fold cv in EL, K.
    destruct B as [->|(v' & r' & L & ->)]; [exists pre, r; auto|]. exists ((v', r') :: pre), r. cbn [app]. rewrite <- EL. split; [reflexivity|].
    cbn. intros k [<-|Ik]; [|auto]. assert (G := view_after_ge (ns_done q) view0). fold cv in G. lia. }
  destruct XL as (pre & r & EX & K). rewrite EX, last_last. cbn [snd].
  assert (LT : exists pre', last_two (pre ++ [(cv, r)]) = pre' ++ [(cv, r)] /\ forall k, In k (map fst pre') -> k < cv).
  { unfold last_two. rewrite app_length. cbn [length]. exists (skipn (length pre + 1 - 2) pre). rewrite skipn_app. replace (length pre + 1 - 2 - length pre) with 0 by lia.
    split; [reflexivity|]. intros k Ik. apply K. apply in_map_iff in Ik as (x & <- & Ik). apply in_map. exact (in_skipn _ _ _ Ik). }
  destruct LT as (pre' & -> & K'). unfold do_select_master_primary.
  assert (GC : get cv (pre' ++ [(cv, r)]) = Some r) by (apply get_app_last; intros Ik; apply K' in Ik; lia).
  assert (SD : forall n, cv <= n -> search_down (fun v => get v (pre' ++ [(cv, r)])) n = cv).
  { induction n as [|n IH]; intros L; [cbn; lia|]. cbn [search_down]. destruct (Nat.eq_dec cv (S n)) as [<-|Ne]; [rewrite GC; reflexivity|].
    assert (get (S n) (pre' ++ [(cv, r)]) = None) as ->.
    { apply get_none. rewrite map_app. intros Ik. apply in_app_iff in Ik as [Ik|[Ik|[]]]; [apply K' in Ik; lia|cbn in Ik; lia]. }
    apply IH. lia. }
  rewrite SD; [rewrite GC; reflexivity|]. destruct (Nat.ltb_spec 1 w); lia.
Qed.

(** A node that starts with validators 1, 2, 3; two views; a batch that adds 4 and one that demotes
    1; batches rejected while others stay applied. *)
Definition s52 : nreg := mkN [[1; 2; 3]; [1; 2; 3]] 0 1 [(0, [1; 2; 3])] [(0, [1; 2; 3])] [] 0 0 [].
Definition ops52 : list nop :=
  [NReq (mkNop 4 (Some true)); NApplied 0 None None; NReq (mkNop 1 (Some false)); NReq (mkNop 9 None); NApplied 1 (Some 0) None;
   NApplied 1 None None; NReq (mkNop 2 (Some false)); NApplied 1 None None; NRejected; NApplied 1 None None; NCommit 0 None; NCommit 1 (Some 0);
   NCommit 1 None; NRejected; NReq (mkNop 5 (Some true)); NApplied 3 None None].
Example ex_C52_started : started s52 [1; 2; 3] 0 [(0, [1; 2; 3])].
Proof.
  unfold started. cbn. split; [reflexivity|]. split; [reflexivity|]. split; [lia|]. split; [lia|]. split; [lia|]. split; [reflexivity|].
  split; [reflexivity|]. split; [reflexivity|]. split; [reflexivity|]. split; [reflexivity|].
  split; [repeat (constructor; [cbn; intuition discriminate|]); constructor|]. eexists. left. reflexivity.
Qed.
Definition q52 : nspec := match nspecs 0 none_yet ops52 with Some q => q | None => none_yet end.
Example ex_C52 : let q := q52 in nspecs 0 none_yet ops52 = Some q /\ careful [1; 2; 3] 0 none_yet ops52 /\ Forall op_ok ops52 /\
  registry [1; 2; 3] (ns_done q) = [2; 3; 4] /\ registry [1; 2; 3] (ns_done q ++ ns_pend q) = [2; 3; 4; 5] /\
  written [1; 2; 3] 0 none_yet ops52 = [[1; 2; 3; 4]; [2; 3; 4]; [2; 3; 4]; [3; 4]; [2; 3; 4]; [2; 3; 4; 5]] /\
  entered [1; 2; 3] 0 (ns_done q ++ ns_pend q) = [(1, [2; 3; 4]); (3, [2; 3; 4])].
Proof.
  intros q. split; [vm_compute; reflexivity|]. split; [vm_compute; repeat (split; [intros; first [exact I|reflexivity|discriminate]|]); exact I|].
  split; [repeat constructor|]. split; [vm_compute; reflexivity|]. split; [vm_compute; reflexivity|]. split; vm_compute; reflexivity.
Qed.

(** The full claim fails: after a batch has been rejected while another stays applied, the next NODE
    operation also changes the registry recorded for the batch that stayed. Here validator 4 is
    added by a batch that is itself rejected, and yet the node ends up, with nothing applied, with 4 among
    its validators, writes 4 into every later batch, and has asked for a view change. *)
Theorem C52_refuted : exists s reg0 view0 bov0 os q s' outs, started s reg0 view0 bov0 /\
  nspecs view0 none_yet os = Some q /\ Forall op_ok os /\ nrun s os = Ok (s', outs) /\
  ns_pend q = [mkNB [] 0 None] /\ registry reg0 (ns_done q ++ ns_pend q) = [1; 2; 3] /\
  committed_node_reg s' = [1; 2; 3; 4] /\ uncommitted_node_reg s' = [1; 2; 3; 4] /\ last outs [] = [1; 2; 3; 4] /\
  n_votes s' = [1].
Proof.
  exists s52, [1; 2; 3], 0, [(0, [1; 2; 3])],
    [NApplied 0 None None; NApplied 0 None None; NRejected; NReq (mkNop 4 (Some true)); NApplied 0 None None; NCommit 0 None; NRejected; NApplied 0 None None].
  eexists _, _, _. split; [exact ex_C52_started|]. split; [vm_compute; reflexivity|]. split; [repeat constructor|]. split; [vm_compute; reflexivity|].
  repeat split; reflexivity.
Qed.

(** *** C53: the registry reloaded from the ledgers *)
Lemma built_prefix root l2 : forall l1 A1 A2, Built root (l1 ++ l2) (A1 ++ A2) -> length A1 = length l1 -> Built root l1 A1.
Proof.
  induction l2 as [|x l2 IH] using rev_ind; intros l1 A1 A2 B L.
  - assert (LN := built_length _ _ _ B). rewrite app_nil_r in *. rewrite app_length in LN. destruct A2; [|cbn in LN; lia]. rewrite app_nil_r in B. exact B.
  - rewrite app_assoc in B. apply built_snoc_inv in B as (A' & a & EA & B & _). assert (LN := built_length _ _ _ B). rewrite app_length in LN.
    destruct A2 as [|a2 A2 _] using rev_ind.
    + exfalso. rewrite app_nil_r in EA. subst A1. rewrite app_length in L. cbn in L. lia.
    + rewrite app_assoc in EA. apply app_inj_tail in EA as [EA _]. apply (IH l1 A1 A2); [rewrite EA; exact B|exact L].
Qed.

(** all batches between a transaction and the one its primaries refer to have the same primaries *)
Lemma prim_chain root l A : Built root l A -> Forall proper l -> (forall x, In x l -> b_prim (snd x) <> None) ->
  forall i a n, nth_error A i = Some a -> a_prim a = Some (Back n) -> 0 < n <= i /\
    forall k x y, i - n <= k <= i -> nth_error l k = Some x -> nth_error l i = Some y -> b_prim (snd x) = b_prim (snd y).
Proof.
  intros Bt. induction Bt as [|l A x a Bt IH E]; intros PR SO i c n Ec EP; [destruct i; discriminate|].
  assert (GN := names_built _ _ _ Bt). apply Forall_app in PR as [PR1 PR2]. inversion PR2 as [|? ? PX _]; subst. specialize (GN PR1).
  assert (LN := built_length _ _ _ Bt). destruct (create_fields _ _ _ _ E PX) as (_ & _ & _ & FP & _). clear E.
  assert (SO1 : forall y, In y l -> b_prim (snd y) <> None) by (intros y Iy; apply SO, in_app_iff; auto).
  apply nth_snoc in Ec as [[L Ec]|[-> ->]].
  - destruct (IH PR1 SO1 i c n Ec EP) as [I1 I2]. split; [exact I1|]. intros k y z Lk Ey Ez.
    rewrite nth_error_app1 in Ey, Ez by lia. exact (I2 k y z Lk Ey Ez).
  - destruct (b_prim (snd x)) as [ps|] eqn:BP; [|destruct (SO x); [apply in_app_iff; right; left; reflexivity|exact BP]].
    assert (LX : nth_error (l ++ [x]) (length A) = Some x) by (rewrite LN; apply nth_snoc_last).
    destruct A as [|l0 A _] using rev_ind; [cbn [lastA rev fill_primaries option_map] in FP; congruence|].
    rewrite lastA_snoc in FP. rewrite app_length in LN |- *. cbn [length] in LN |- *.
    destruct (nth_error l (length A)) as [z|] eqn:Ez; [|apply nth_error_None in Ez; lia].
    destruct (b_prim (snd z)) as [zs|] eqn:BZ; [|destruct (SO1 z); [exact (nth_error_In _ _ Ez)|exact BZ]].
    destruct (GN _ z l0 Ez (nth_snoc_last A l0)) as (G1 & _). destruct (G1 zs BZ) as (l1 & Q1 & Q2). rewrite nth_snoc_last in Q1. injection Q1 as <-.
    unfold fill_primaries in FP. rewrite app_length in FP, LX. cbn [length] in FP, LX. rewrite Nat.add_1_r in LX |- *.
    destruct Q2 as [Q2|(m & a' & Q2 & Q3 & Q4 & Q5)].
    + rewrite Q2 in FP. rewrite EP in FP. destruct (names_eq_dec zs ps) as [->|]; [|congruence]. assert (n = 1) by congruence. subst n.
      split; [lia|]. intros k y w Lk Ey Ew. rewrite LX in Ew. injection Ew as <-. rewrite BP.
      destruct (Nat.eq_dec k (S (length A))) as [->|]; [rewrite LX in Ey; injection Ey as <-; exact BP|].
      assert (k = length A) by lia. subst k. rewrite nth_error_app1 in Ey by lia. congruence.
    + rewrite Q2 in FP. destruct (m <? length A + 1); [|discriminate].
      replace (S (length A) - m) with (S (length A - m)) in FP by lia. cbn [look] in FP. rewrite Q4 in FP. cbn [bind] in FP. rewrite Q5, EP in FP.
      destruct (names_eq_dec zs ps) as [->|]; [|congruence]. assert (n = m + 1) by congruence. subst n. split; [lia|].
      destruct (IH PR1 SO1 (length A) l0 m (nth_snoc_last _ _) Q2) as [_ I2].
      intros k y w Lk Ey Ew. rewrite LX in Ew. injection Ew as <-. rewrite BP.
      destruct (Nat.eq_dec k (S (length A))) as [->|]; [rewrite LX in Ey; injection Ey as <-; exact BP|].
      rewrite nth_error_app1 in Ey by lia. rewrite (I2 k y z) by (assumption || lia). exact BZ.
Qed.

Section Reload.
  Variable deser_log : bytes -> txn adata.
  Variable p : pledger adata.
  Variable txns : pool.
  Variable A : list adata.
  Variable bs : list nb.
  Variable reg0 : list nat.
  Hypothesis SZ : size (p_base p) = length A.
  Hypothesis GB : forall n, getBySeqNo adata deser_log (p_base p) n =
    match n with 0 => Err KeyError | S i => match nth_error A i with Some a => Ok (Some (mkTxn a (Some (S i)))) | None => Err KeyError end end.
  Hypothesis LEN : length bs = length A.
  Hypothesis VW : forall i a b, nth_error A i = Some a -> nth_error bs i = Some b -> a_view a = nb_view b.
  Hypothesis RG : forall i, i < length A -> stands_for a_reg A i (registry reg0 (firstn (S i) bs)).
  Hypothesis FST : forall a, nth_error A 0 = Some a -> load_node_reg_for_first_audit_txn txns a = Ok reg0.
  Hypothesis EMPTY : A = [] -> load_node_reg_from_pool_ledger txns = reg0.
  Hypothesis MONO : mono 0 bs.
  Hypothesis CHAIN : forall i a n, nth_error A i = Some a -> a_prim a = Some (Back n) -> 0 < n <= i /\
    forall k x y, i - n <= k <= i -> nth_error bs k = Some x -> nth_error bs i = Some y -> nb_view x = nb_view y.

  Lemma fetch_at i a : nth_error A i = Some a -> fetch deser_log p (S i) = Ok (mkTxn a (Some (S i))).
  Proof. intros E. unfold fetch. rewrite GB, E. reflexivity. Qed.

  Lemma reg_at i a : nth_error A i = Some a ->
    load_node_reg_from_audit_txn deser_log txns p (mkTxn a (Some (S i))) = Ok (registry reg0 (firstn (S i) bs)).
  Proof.
    intros E. assert (L : i < length A) by (apply nth_error_Some; congruence). destruct (RG i L) as (a1 & E1 & D). rewrite E in E1. injection E1 as <-.
    unfold load_node_reg_from_audit_txn. cbn [t_body t_seq seq_of bind]. destruct D as [->|(n & a' & -> & Ln & E2 & E3)]; [reflexivity|].
    replace (S i - n) with (S (i - n)) by lia. rewrite (fetch_at _ _ E2). cbn [bind t_body]. rewrite E3. reflexivity.
  Qed.

  (** the loop finds the first transaction of the view *)
  Lemma loop_at v : forall fuel i a, i < fuel -> nth_error A i = Some a -> a_view a = v ->
    exists k ak, k <= i /\ nth_error A k = Some ak /\ (forall j b, k <= j <= i -> nth_error bs j = Some b -> nb_view b = v) /\
      match k with
      | 0 => first_txn_loop deser_log fuel p v (mkTxn a (Some (S i))) = Ok (mkTxn ak (Some 1), None)
      | S k' => exists a', nth_error A k' = Some a' /\ a_view a' <> v /\
                  first_txn_loop deser_log fuel p v (mkTxn a (Some (S i))) = Ok (mkTxn ak (Some (S k)), Some (mkTxn a' (Some k)))
      end.
  Proof.
    induction fuel as [|fuel IH]; intros i a LF E EV; [lia|]. cbn [first_txn_loop t_body].
    assert (BI : forall j, j < length A -> exists b, nth_error bs j = Some b).
    { intros j Lj. destruct (nth_error bs j) eqn:Eb; [eauto|]. apply nth_error_None in Eb. lia. }
    assert (LI : i < length A) by (apply nth_error_Some; congruence).
    assert (ST : exists i1 a1, i1 <= i /\ nth_error A i1 = Some a1 /\ (forall j b, i1 <= j <= i -> nth_error bs j = Some b -> nb_view b = v) /\
      (match a_prim a with Some (Back n) => s <- seq_of (mkTxn a (Some (S i))) ;; fetch deser_log p (s - n) | _ => Ok (mkTxn a (Some (S i))) end) = Ok (mkTxn a1 (Some (S i1)))).
    { destruct (BI i LI) as (b & Eb). destruct (a_prim a) as [[l|n]|] eqn:EP.
      1, 3: exists i, a; repeat (split; [lia || assumption|]); split; [|reflexivity]; intros j c Lj Ej; replace j with i in Ej by lia;
          rewrite <- (VW _ _ _ E Ej); exact EV.
      destruct (CHAIN _ _ _ E EP) as [Ln CH]. destruct (nth_error A (i - n)) as [a1|] eqn:E1; [|apply nth_error_None in E1; lia].
      exists (i - n), a1. split; [lia|]. split; [exact E1|]. split.
      - intros j c Lj Ej. rewrite (CH j c b Lj Ej Eb), <- (VW _ _ _ E Eb). exact EV.
      - cbn [seq_of t_seq bind]. replace (S i - n) with (S (i - n)) by lia. apply fetch_at, E1. }
    destruct ST as (i1 & a1 & L1 & E1 & V1 & ->). cbn [bind seq_of t_seq].
    destruct i1 as [|i0].
    - cbn [Nat.leb]. exists 0, a1. repeat (split; [lia || assumption|]). reflexivity.
    - destruct (Nat.leb_spec (S (S i0)) 1); [lia|]. replace (S (S i0) - 1) with (S i0) by lia.
      destruct (nth_error A i0) as [a0|] eqn:E0; [|apply nth_error_None in E0; lia]. rewrite (fetch_at _ _ E0). cbn [bind t_body].
      destruct (Nat.eqb_spec v (a_view a0)) as [EQ|NE].
      + destruct (IH i0 a0 ltac:(lia) E0 (eq_sym EQ)) as (k & ak & Lk & Ek & Vk & R). exists k, ak. split; [lia|]. split; [exact Ek|].
        split; [|exact R]. intros j b Lj Ej. destruct (le_lt_dec j i0); [apply (Vk j b); [lia|exact Ej]|apply (V1 j b); [lia|exact Ej]].
      + exists (S i0), a1. split; [lia|]. split; [exact E1|]. split; [exact V1|]. exists a0. split; [exact E0|]. split; [congruence|reflexivity].
  Qed.

  Lemma run_entered reg u v : forall run, run <> [] -> (forall b, In b run -> nb_view b = v) -> u <= v ->
    entered reg u run = if u <? v then [(v, reg)] else [].
  Proof.
    assert (SAME : forall run reg, (forall b, In b run -> nb_view b = v) -> entered reg v run = []).
    { induction run as [|b run IH]; intros r H; [reflexivity|]. cbn [entered]. rewrite (H b) by (left; reflexivity). rewrite Nat.ltb_irrefl.
      apply IH. intros c Ic. apply H. right. exact Ic. }
    intros [|b run] NE H L; [congruence|]. cbn [entered]. rewrite (H b) by (left; reflexivity).
    assert (H' : forall c, In c run -> nb_view c = v) by (intros c Ic; apply H; right; exact Ic).
    destruct (Nat.ltb_spec u v); [rewrite SAME by exact H'; reflexivity|]. replace u with v by lia. apply SAME, H'.
  Qed.

  (** the batches before number [k], those of the view from [k] to [i] *)
  Lemma entered_split k i v : k <= i -> i < length A -> (forall j b, k <= j <= i -> nth_error bs j = Some b -> nb_view b = v) ->
    let u := view_after 0 (firstn k bs) in
    u <= v /\ view_after 0 (firstn (S i) bs) = v /\
    entered reg0 0 (firstn (S i) bs) = entered reg0 0 (firstn k bs) ++ (if u <? v then [(v, registry reg0 (firstn k bs))] else []).
  Proof.
    intros Lk Li H u. set (run := firstn (S i - k) (skipn k bs)).
    assert (E : firstn (S i) bs = firstn k bs ++ run).
    { unfold run. rewrite <- (firstn_skipn k bs) at 1. rewrite firstn_app, firstn_firstn, firstn_length. f_equal; [f_equal; lia|]. f_equal. lia. }
    assert (NE : run <> []). { intros C. apply (f_equal (@length nb)) in C. unfold run in C. rewrite firstn_length, skipn_length in C. cbn [length] in C. lia. }
    assert (HR : forall b, In b run -> nb_view b = v).
    { intros b Ib. apply In_nth_error in Ib as [j Ej]. assert (Lj : j < S i - k).
      { assert (j < length run) by (apply nth_error_Some; congruence). unfold run in H0. rewrite firstn_length in H0. lia. }
      apply (H (k + j) b); [lia|]. assert (EJ : nth_error (firstn (S i) bs) (k + j) = Some b).
      { rewrite E, nth_error_app2; rewrite firstn_length; [|lia]. rewrite Nat.min_l by lia. replace (k + j - k) with j by lia. exact Ej. }
      rewrite <- (firstn_skipn (S i) bs). rewrite nth_error_app1; [exact EJ|]. apply nth_error_Some. congruence. }
    assert (M : mono 0 (firstn (S i) bs)) by (rewrite <- (firstn_skipn (S i) bs) in MONO; apply mono_app in MONO; apply MONO).
    rewrite E in M. apply mono_app in M as [_ M]. fold u in M.
    assert (UV : u <= v). { destruct run as [|b r]; [congruence|]. destruct M as [M _]. rewrite (HR b) in M by (left; reflexivity). exact M. }
    split; [exact UV|]. rewrite E, view_after_app, entered_app. fold u. split.
    - clear -NE HR UV. assert (X : forall r w, (forall b, In b r -> nb_view b = v) -> w <= v -> (r = [] -> w = v) -> view_after w r = v).
      { induction r as [|b r IH]; intros w H L Z; [apply Z; reflexivity|]. change (view_after w (b :: r)) with (view_after (Nat.max w (nb_view b)) r).
        rewrite (H b) by (left; reflexivity). rewrite Nat.max_r by lia. apply IH; [intros c Ic; apply H; right; exact Ic|lia|reflexivity]. }
      apply X; [exact HR|exact UV|congruence].
    - f_equal. apply run_entered; assumption.
  Qed.

  Lemma reloaded s : exists s', on_catchup_finished deser_log s txns p = Ok s' /\
    committed_node_reg s' = registry reg0 bs /\ uncommitted_node_reg s' = registry reg0 bs /\ n_unc s' <> n_com s' /\
    n_unc s' < length (n_heap s') /\ n_com s' < length (n_heap s') /\ n_queue s' = n_queue s /\ n_votes s' = n_votes s /\
    n_cview s' = view_after 0 bs /\ n_uview s' = view_after 0 bs /\
    n_cbov s' = last_two ((0, reg0) :: entered reg0 0 bs) /\ n_ubov s' = last_two ((0, reg0) :: entered reg0 0 bs).
  Proof.
    assert (LA : length A = 0 \/ exists m, length A = S m) by (destruct (length A); eauto).
    assert (CUR : load_current_node_reg deser_log txns p = Ok (registry reg0 bs)).
    { unfold load_current_node_reg, load_current_node_reg_from_audit_ledger, get_last_committed_txn. rewrite SZ.
      destruct LA as [EL|[m EL]]; rewrite EL.
      - cbn [Nat.eqb bind]. rewrite EMPTY by (destruct A; [reflexivity|discriminate EL]). f_equal. assert (L := LEN). rewrite EL in L. destruct bs; [reflexivity|discriminate L].
      - cbn [Nat.eqb]. change (0 <? S m) with true. cbv iota. rewrite GB. destruct (RG m) as (a & Ea & D); [lia|]. rewrite Ea. cbn [bind t_body].
        rewrite firstn_all2 in D by lia. destruct D as [->|(n & a' & -> & Ln & E2 & E3)]; [reflexivity|].
        cbn [seq_of t_seq bind]. replace (S m - n) with (S (m - n)) by lia. rewrite (fetch_at _ _ E2). cbn [bind t_body]. rewrite E3. reflexivity. }
    assert (LV : load_last_view_node_reg deser_log txns p (registry reg0 bs) = Ok (view_after 0 bs, last_two ((0, reg0) :: entered reg0 0 bs))).
    { unfold load_last_view_node_reg, get_last_committed_txn. rewrite SZ. destruct LA as [EL|[m EL]]; rewrite EL.
      { cbn [Nat.eqb bind]. assert (L := LEN). rewrite EL in L. destruct bs; [reflexivity|discriminate L]. }
      cbn [Nat.eqb]. change (0 <? S m) with true. cbv iota. rewrite GB.
      destruct (nth_error A m) as [a|] eqn:Ea; [|apply nth_error_None in Ea; lia]. cbn [bind]. unfold get_first_txn_in_view at 1. rewrite SZ. cbn [t_body].
      destruct (loop_at (a_view a) (S (length A)) m a ltac:(lia) Ea eq_refl) as (k & ak & Lk & Ek & Vk & R).
      destruct (entered_split k m (a_view a) Lk ltac:(lia) Vk) as (UV & VA & EN). rewrite firstn_all2 in VA, EN by lia.
      assert (AK : a_view ak = a_view a).
      { destruct (nth_error bs k) as [b|] eqn:Eb; [|apply nth_error_None in Eb; lia]. rewrite (VW _ _ _ Ek Eb). apply (Vk k b); [lia|exact Eb]. }
      destruct k as [|k'].
      - rewrite R. cbn [bind t_body]. rewrite (FST _ Ek). cbn [bind]. rewrite AK, EN. cbn [firstn entered app view_after fold_left] in *. rewrite VA.
        destruct (a_view a) as [|v] eqn:EV; [reflexivity|]. reflexivity.
      - destruct R as (a' & Ea' & NV & R). rewrite R. cbn [bind t_body]. rewrite (reg_at _ _ Ea'). cbn [bind]. rewrite AK.
        unfold get_first_txn_in_view. rewrite SZ. cbn [t_body].
        destruct (loop_at (a_view a') (S (length A)) k' a' ltac:(lia) Ea' eq_refl) as (k2 & ak2 & Lk2 & Ek2 & Vk2 & R2).
        destruct (entered_split k2 k' (a_view a') Lk2 ltac:(lia) Vk2) as (UV2 & VA2 & EN2).
        assert (AK2 : a_view ak2 = a_view a').
        { destruct (nth_error bs k2) as [b|] eqn:Eb; [|apply nth_error_None in Eb; lia]. rewrite (VW _ _ _ Ek2 Eb). apply (Vk2 k2 b); [lia|exact Eb]. }
        rewrite VA2 in UV, EN. rewrite VA. destruct (Nat.ltb_spec (a_view a') (a_view a)) as [LT|]; [|lia].
        destruct (Nat.eqb_spec (a_view a) 0) as [|_]; [lia|].
        assert (SS : forall (r2 r : list nat), sset (a_view a') r2 [(a_view a, r)] = [(a_view a', r2); (a_view a, r)]).
        { intros r2 r. cbn [sset]. destruct (Nat.eqb_spec (a_view a') (a_view a)); [lia|]. destruct (Nat.ltb_spec (a_view a') (a_view a)); [reflexivity|lia]. }
        assert (L2 : forall (x : list (nat * list nat)) y z, last_two ((x ++ [y]) ++ [z]) = [y; z]).
        { intros x y z. unfold last_two. rewrite !app_length. cbn [length]. rewrite <- app_assoc. cbn [app]. rewrite skipn_app.
          rewrite skipn_all2 by lia. cbn [app]. replace (length x + 1 + 1 - 2 - length x) with 0 by lia. reflexivity. }
        rewrite EN, app_comm_cons, EN2. destruct k2 as [|k3].
        + rewrite R2. cbn [bind t_body]. rewrite (FST _ Ek2). cbn [bind]. rewrite AK2, SS. cbn [firstn entered app view_after fold_left] in *.
          change (registry reg0 []) with reg0. f_equal. f_equal.
          destruct (a_view a') as [|v']; [reflexivity|]. reflexivity.
        + destruct R2 as (a3 & Ea3 & NV3 & R2). rewrite R2. cbn [bind t_body]. rewrite (reg_at _ _ Ea3). cbn [bind]. rewrite AK2, SS.
          assert (UV3 : view_after 0 (firstn (S k3) bs) <> a_view a').
          { destruct (loop_at (a_view a3) (S (length A)) k3 a3 ltac:(lia) Ea3 eq_refl) as (k4 & _ & Lk4 & _ & Vk4 & _).
            destruct (entered_split k4 k3 (a_view a3) Lk4 ltac:(lia) Vk4) as (_ & VA3 & _). rewrite VA3. exact NV3. }
          destruct (Nat.ltb_spec (view_after 0 (firstn (S k3) bs)) (a_view a')); [|lia].
          rewrite app_comm_cons, L2. reflexivity. }
    unfold on_catchup_finished. rewrite CUR. cbn [bind]. rewrite LV. cbn [bind]. eexists. split; [reflexivity|].
    unfold committed_node_reg, uncommitted_node_reg, deref. cbn [n_heap n_unc n_com n_cbov n_ubov n_queue n_uview n_cview n_votes].
    rewrite app_length. cbn [length]. split; [rewrite app_nth2 by lia; replace (S (length (n_heap s)) - length (n_heap s)) with 1 by lia; reflexivity|].
    split; [rewrite app_nth2, Nat.sub_diag by lia; reflexivity|]. repeat (split; [lia || reflexivity|]). reflexivity.
  Qed.
End Reload.

Lemma entered_bound reg0 bs : exists pre r, (0, reg0) :: entered reg0 0 bs = pre ++ [(view_after 0 bs, r)] /\
  forall k, In k (map fst pre) -> k < view_after 0 bs.
Proof. exact (entered_last reg0 0 reg0 bs). Qed.
Lemma last_two_shape {V} (pre : list V) x : last_two (pre ++ [x]) = [x] \/ exists y, In y pre /\ last_two (pre ++ [x]) = [y; x].
Proof.
  destruct pre as [|y pre _] using rev_ind; [left; reflexivity|]. right. exists y. split; [apply in_app_iff; right; left; reflexivity|].
  unfold last_two. rewrite !app_length. cbn [length]. rewrite <- app_assoc. cbn [app]. rewrite skipn_app, skipn_all2 by lia. cbn [app].
  replace (length pre + 1 + 1 - 2 - length pre) with 0 by lia. reflexivity.
Qed.
Lemma pool_nodup txns : NoDup (load_node_reg_from_pool_ledger txns).
Proof.
  unfold load_node_reg_from_pool_ledger. assert (G : forall l (reg : list nat), NoDup reg -> NoDup (fold_left (fun reg t => match t with Some o => reg_update reg o | None => reg end) l reg)).
  { induction l as [|t l IH]; intros reg N; [exact N|]. cbn [fold_left]. apply IH. destruct t; [|exact N]. rewrite reg_update_changed by exact N. apply changed_nodup, N. }
  apply G. constructor.
Qed.

Lemma sizes_built root l A : Built root l A -> Forall proper l -> forall i z c, nth_error l i = Some z -> nth_error A i = Some c ->
  forall lid w, live lid z w -> get lid (a_size c) = Some (length (lv_txns w)).
Proof.
  intros Bt. induction Bt as [|l A x a Bt IH E]; intros PR i z c Ez Ec lid w LW; [destruct i; discriminate|].
  apply Forall_app in PR as [PR1 PR2]. inversion PR2; subst. assert (LN := built_length _ _ _ Bt). apply nth_snoc in Ez as [[L Ez]|[-> ->]].
  - rewrite nth_error_app1 in Ec by lia. exact (IH PR1 i z c Ez Ec lid w LW).
  - rewrite <- LN, nth_snoc_last in Ec. injection Ec as <-. destruct (create_fields root A x a E) as (_ & _ & _ & _ & _ & Z & _); [assumption|]. apply (Z lid w LW).
Qed.

(** the view a batch belongs to: that in which it was proposed first *)
Definition view_of (x : env * batch) : nat := batch_view (b_view (snd x)) (b_orig (snd x)).

(** The committed batches [D] with audit transaction are the batches [bs]: same views, and each
    carries the registry that the batches up to it give. *)
Definition same_batches (reg0 : list nat) (D : list (env * batch)) (bs : list nb) : Prop :=
  length D = length bs /\ forall i x b, nth_error D i = Some x -> nth_error bs i = Some b ->
    view_of x = nb_view b /\ b_reg (snd x) = Some (registry reg0 (firstn (S i) bs)).
(** Views do not decrease. *)
Definition ordered_views (D : list (env * batch)) : Prop :=
  forall i x y, nth_error D i = Some x -> nth_error D (S i) = Some y -> view_of x <= view_of y.
(** Every batch has its primaries, and those of consecutive batches of different views differ. *)
Definition primaries_change (D : list (env * batch)) : Prop :=
  (forall x, In x D -> b_prim (snd x) <> None) /\
  forall i x y, nth_error D i = Some x -> nth_error D (S i) = Some y -> view_of x <> view_of y -> b_prim (snd x) <> b_prim (snd y).
(** [reg0] are the validators in the pool ledger when the first batch has been applied. *)
Definition genesis (reg0 : list nat) (txns : pool) (D : list (env * batch)) : Prop :=
  match D with
  | [] => reg0 = load_node_reg_from_pool_ledger txns
  | x :: _ => exists v, live POOL_LEDGER_ID x v /\ reg0 = load_node_reg_from_pool_ledger (firstn (length (lv_txns v)) txns)
  end.

Section C53.
  Variable root : list bytes -> bytes.
  Variable H : bytes -> bytes.
  Variable ser_log : txn adata -> bytes.
  Variable deser_log : bytes -> txn adata.
  Variable ser_tree : txn adata -> bytes.
  Hypothesis deser_ser : forall x, deser_log (ser_log x) = x.
  Hypothesis ser_nonempty : forall x, ser_log x <> [].
  Hypothesis digest_nonempty : forall x, H x <> [].
  Notation history := (history root H ser_log deser_log ser_tree).

  Lemma mono_of_views bs : forall u, (forall b, nth_error bs 0 = Some b -> u <= nb_view b) ->
    (forall i b c, nth_error bs i = Some b -> nth_error bs (S i) = Some c -> nb_view b <= nb_view c) -> mono u bs.
  Proof.
    induction bs as [|b bs IH]; intros u H0 H1; [exact I|]. cbn [mono]. split; [apply H0; reflexivity|]. apply IH.
    - intros c Ec. apply (H1 0 b c eq_refl Ec).
    - intros i c d Ec Ed. exact (H1 (S i) c d Ec Ed).
  Qed.

  (** After a restart or a catch-up the handler holds what the committed batches determine: the
      registry after the last one, and the registries with which the last two views were
      entered. *)
  Theorem C53_reload_partial : forall os h done pending txns reg0 bs s, history os h done pending ->
    Forall proper (audited (done ++ pending)) -> same_batches reg0 (audited done) bs -> ordered_views (audited done) ->
    primaries_change (audited done) -> genesis reg0 txns (audited done) -> Forall nb_ok bs -> n_queue s = [] ->
    exists s', on_catchup_finished deser_log s txns (h_ledger h) = Ok s' /\
      started s' (registry reg0 bs) (view_after 0 bs) (last_two ((0, reg0) :: entered reg0 0 bs)).
  Proof.
    intros os h done pending txns reg0 bs s Hi PR [LD SB] OV [PS PC] GE OKB NQ.
    destruct (rel_ledger root H ser_log deser_log ser_tree deser_ser ser_nonempty digest_nonempty _ _
      (history_rel root H ser_log deser_log ser_tree deser_ser ser_nonempty digest_nonempty _ _ _ _ Hi)) as (A & Ap & Bt & LA & _ & _ & SZ & _ & _ & GB).
    cbn [fst snd] in *. rewrite audited_app in Bt, PR. apply (built_prefix root (audited pending) (audited done) A Ap) in Bt; [|exact LA].
    apply Forall_app in PR as [PR _]. set (D := audited done) in *.
    assert (NX : forall i, i < length A -> exists x b, nth_error D i = Some x /\ nth_error bs i = Some b).
    { intros i L. destruct (nth_error D i) as [x|] eqn:Ex; [|apply nth_error_None in Ex; lia].
      destruct (nth_error bs i) as [b|] eqn:Eb; [|apply nth_error_None in Eb; lia]. eauto. }
    assert (LI : forall i a, nth_error A i = Some a -> i < length A) by (intros i a E; apply nth_error_Some; congruence).
    assert (VW : forall i a b, nth_error A i = Some a -> nth_error bs i = Some b -> a_view a = nb_view b).
    { intros i a b Ea Eb. destruct (NX i (LI i a Ea)) as (x & b' & Ex & Eb'). rewrite Eb in Eb'. injection Eb' as <-.
      destruct (fields_built root D A Bt PR i x a Ex Ea) as (V & _). rewrite V. apply (SB i x b Ex Eb). }
    assert (MN : mono 0 bs).
    { apply mono_of_views; [intros; lia|]. intros i b c Eb Ec.
      destruct (NX i) as (x & b' & Ex & Eb'); [rewrite LA, LD; apply nth_error_Some; congruence|]. rewrite Eb in Eb'. injection Eb' as <-.
      destruct (NX (S i)) as (y & c' & Ey & Ec'); [rewrite LA, LD; apply nth_error_Some; congruence|]. rewrite Ec in Ec'. injection Ec' as <-.
      destruct (SB _ _ _ Ex Eb) as [<- _]. destruct (SB _ _ _ Ey Ec) as [<- _]. exact (OV i x y Ex Ey). }
    assert (N0 : NoDup reg0).
    { destruct D as [|x D']; cbn [genesis] in GE; [rewrite GE; apply pool_nodup|]. destruct GE as (v & _ & ->). apply pool_nodup. }
    destruct (reloaded deser_log (h_ledger h) txns A bs reg0) with (s := s) as (s' & R & E1 & E2 & E3 & E4 & E5 & E6 & _ & E7 & E8 & E9 & E10).
    - exact SZ.
    - exact GB.
    - lia.
    - exact VW.
    - intros i L. destruct (NX i L) as (x & b & Ex & Eb). destruct (nth_error A i) as [a|] eqn:Ea; [|apply nth_error_None in Ea; lia].
      destruct (names_built root D A Bt PR i x a Ex Ea) as (_ & _ & G & _). apply G. apply (SB i x b Ex Eb).
    - intros a Ea. destruct D as [|x D']; [destruct A; [discriminate Ea|discriminate LA]|]. destruct GE as (v & LV & ->).
      unfold load_node_reg_for_first_audit_txn. rewrite (sizes_built root _ _ Bt PR 0 x a eq_refl Ea _ _ LV). reflexivity.
    - intros ->. cbn in LA. destruct D; [|discriminate LA]. symmetry. exact GE.
    - exact MN.
    - intros i a n Ea EP. destruct (prim_chain root D A Bt PR PS i a n Ea EP) as [Ln CH]. split; [exact Ln|].
      assert (STEP : forall d k x y, d <= n -> k = i - d -> nth_error bs k = Some x -> nth_error bs i = Some y -> nb_view x = nb_view y).
      { induction d as [|d IHd]; intros k x y Ld -> Ex Ey; [replace (i - 0) with i in Ex by lia; congruence|].
        assert (LA' := LI _ _ Ea). destruct (NX (i - d)) as (z' & z & Ez' & Ez); [lia|]. rewrite <- (IHd (i - d) z y ltac:(lia) eq_refl Ez Ey).
        destruct (NX (i - S d)) as (x' & x0 & Ex' & Ex0); [lia|]. rewrite Ex in Ex0. injection Ex0 as <-.
        destruct (NX i LA') as (y' & _ & Ey' & _).
        destruct (SB _ _ _ Ex' Ex) as [<- _]. destruct (SB _ _ _ Ez' Ez) as [<- _].
        destruct (Nat.eq_dec (view_of x') (view_of z')) as [|NE]; [assumption|]. exfalso.
        replace (i - d) with (S (i - S d)) in Ez' by lia. apply (PC _ _ _ Ex' Ez' NE).
        rewrite (CH (i - S d) x' y') by (assumption || lia). symmetry. apply (CH (S (i - S d))); [lia|exact Ez'|exact Ey']. }
      intros k x y Lk Ex Ey. apply (STEP (i - k) k x y); [lia|lia|exact Ex|exact Ey].
    - exists s'. split; [exact R|]. unfold started. rewrite E1, E2, E6, E7, E8, E9, E10. repeat (split; [first [reflexivity|assumption]|]).
      split.
      + apply registry_nodup; [exact N0|exact OKB].
      + destruct (entered_last reg0 0 reg0 bs) as (pre & r & -> & K). exists r.
        destruct (last_two_shape pre (view_after 0 bs, r)) as [->|((v', r') & Iy & ->)]; [left; reflexivity|].
        right. exists v', r'. split; [|reflexivity]. apply K. apply in_map_iff. exists (v', r'). auto.
  Qed.

  (** A node that has run from the beginning and a node reloaded from the ledgers it left behind
      hold the same: same registries, same views, same primaries for every later view. *)
  Theorem C53_as_running_partial : forall os h done pending txns reg0 s0 nops q s, history os h done pending ->
    Forall proper (audited (done ++ pending)) -> ordered_views (audited done) -> primaries_change (audited done) ->
    genesis reg0 txns (audited done) ->
    started s0 reg0 0 [(0, reg0)] -> nspecs 0 none_yet nops = Some q -> careful reg0 0 none_yet nops -> Forall op_ok nops ->
    ns_pend q = [] -> ns_open q = [] -> same_batches reg0 (audited done) (ns_done q) -> n_queue s = [] ->
    exists s1 outs s2, nrun s0 nops = Ok (s1, outs) /\ on_catchup_finished deser_log s txns (h_ledger h) = Ok s2 /\
      committed_node_reg s2 = committed_node_reg s1 /\ uncommitted_node_reg s2 = uncommitted_node_reg s1 /\
      n_cbov s2 = n_cbov s1 /\ n_ubov s2 = n_ubov s1 /\ n_cview s2 = n_cview s1 /\ n_uview s2 = n_uview s1 /\
      active_node_reg s2 = active_node_reg s1.
  Proof.
    intros os h done pending txns reg0 s0 nops q s Hi PR OV PC GE ST E CA OK NP NO SB NQ. assert (SO := started_start _ _ _ _ ST).
    destruct (ni_run _ _ _ SO nops s0 none_yet q (started_ni _ _ _ _ ST) E CA OK) as (s1 & R1 & I1).
    destruct I1. rewrite NP, app_nil_r in *. rewrite NO in *.
    destruct (C53_reload_partial os h done pending txns reg0 (ns_done q) s Hi PR SB OV PC GE i_ok NQ) as (s2 & R2 & S2).
    destruct S2 as (A1 & A2 & _ & _ & _ & _ & A3 & A4 & A5 & A6 & _).
    exists s1, (written reg0 0 none_yet nops), s2. split; [exact R1|]. split; [exact R2|]. cbn [fold_left entered app] in *.
    split; [congruence|]. split; [congruence|]. split; [congruence|]. split; [congruence|]. split; [congruence|]. split; [congruence|].
    assert (n_ubov s2 = n_ubov s1) as EU by congruence. unfold active_node_reg. rewrite EU.
    reflexivity.
  Qed.
End C53.

(** Five batches in the views 0, 1 and 3; the third makes 5 a validator. *)
Definition pool53 : pool := map (fun n => Some (mkNop n (Some true))) [1; 2; 3; 4] ++ [None; Some (mkNop 5 (Some true))].
Definition envp (k : nat) : env := mkEnv [(0, mkLV (repeat [7%N] k) 1 (Some [1%N])); (3, mkLV [] 0 None)] [].
Definition batp (view s : nat) (ps reg : list nat) : batch := mkBatch 0 view None s s (Some ps) (Some reg) true.
Definition done53 : list (env * batch) :=
  [(envp 5, batp 0 1 [1] [1; 2; 3; 4]); (envp 5, batp 0 2 [1] [1; 2; 3; 4]); (envp 6, batp 1 3 [2] [1; 2; 3; 4; 5]);
   (envp 6, batp 1 4 [2] [1; 2; 3; 4; 5]); (envp 6, batp 3 5 [4] [1; 2; 3; 4; 5])].
Definition ops53 : list aop := map (fun x => ACatchup (fst x) (snd x)) done53.
Definition nops53 : list nop :=
  [NApplied 0 None None; NApplied 0 None None; NReq (mkNop 5 (Some true)); NApplied 1 None None; NCommit 0 None; NCommit 0 None;
   NApplied 1 None None; NCommit 1 None; NCommit 1 None; NApplied 3 None None; NCommit 3 None].
Definition s53 : nreg := mkN [[1; 2; 3; 4]; [1; 2; 3; 4]] 0 1 [(0, [1; 2; 3; 4])] [(0, [1; 2; 3; 4])] [] 0 0 [].
Definition q53 : nspec := match nspecs 0 none_yet nops53 with Some q => q | None => none_yet end.
Definition bs53 : list nb := [mkNB [] 0 None; mkNB [] 0 None; mkNB [mkNop 5 (Some true)] 1 None; mkNB [] 1 None; mkNB [] 3 None].
Definition reloads (P : nreg -> Prop) (txns : pool) (h : handler adata) : Prop :=
  match on_catchup_finished deser_a new_nreg txns (h_ledger h) with Ok s => P s | Err _ => False end.
Lemma reloads_some P txns h : reloads P txns h -> exists s, on_catchup_finished deser_a new_nreg txns (h_ledger h) = Ok s /\ P s.
Proof. unfold reloads. destruct (on_catchup_finished deser_a new_nreg txns (h_ledger h)); [eauto|intros []]. Qed.

Lemma properp k b : proper (envp k, b).
Proof. split; [|constructor]. cbn. repeat (constructor; [cbn; intuition discriminate|]). constructor. Qed.
Lemma started_at reg : NoDup reg -> started (mkN [reg; reg] 0 1 [(0, reg)] [(0, reg)] [] 0 0 []) reg 0 [(0, reg)].
Proof.
  intros N. unfold started. cbn. split; [reflexivity|]. split; [reflexivity|]. split; [lia|]. split; [lia|]. split; [lia|]. split; [reflexivity|].
  split; [reflexivity|]. split; [reflexivity|]. split; [reflexivity|]. split; [reflexivity|]. split; [exact N|]. eexists. left. reflexivity.
Qed.
Example ex_C53 : (exists h, history rt toyH ser_a deser_a ser_a ops53 h done53 []) /\
  Forall proper (audited (done53 ++ [])) /\ ordered_views (audited done53) /\ primaries_change (audited done53) /\
  genesis [1; 2; 3; 4] pool53 (audited done53) /\ started s53 [1; 2; 3; 4] 0 [(0, [1; 2; 3; 4])] /\
  nspecs 0 none_yet nops53 = Some q53 /\ careful [1; 2; 3; 4] 0 none_yet nops53 /\ Forall op_ok nops53 /\
  ns_pend q53 = [] /\ ns_open q53 = [] /\ same_batches [1; 2; 3; 4] (audited done53) (ns_done q53) /\
  last_two ((0, [1; 2; 3; 4]) :: entered [1; 2; 3; 4] 0 (ns_done q53)) = [(1, [1; 2; 3; 4]); (3, [1; 2; 3; 4; 5])].
Proof.
  split; [destruct (ends_history ops53 (fun _ => True) done53 [] ltac:(vm_compute; exact I) eq_refl) as (h & Hi & _); exists h; exact Hi|].
  split; [repeat (apply Forall_cons; [apply properp|]); constructor|].
  split; [intros i x y Ex Ey; do 5 (destruct i as [|i]; [cbn in Ex, Ey; injection Ex as <-; first [discriminate Ey|injection Ey as <-]; vm_compute; lia|]); destruct i; discriminate|].
  split; [split; [intros x Ix; apply In_nth_error in Ix as [i Ei]; do 5 (destruct i as [|i]; [cbn in Ei; injection Ei as <-; discriminate|]); destruct i; discriminate|]|].
  { intros i x y Ex Ey NE. do 5 (destruct i as [|i]; [cbn in Ex, Ey; injection Ex as <-; first [discriminate Ey|injection Ey as <-]; first [discriminate|exfalso; apply NE; reflexivity]|]). destruct i; discriminate. }
  split; [exists (mkLV (repeat [7%N] 5) 1 (Some [1%N])); split; [split; [reflexivity|split; [reflexivity|discriminate]]|reflexivity]|].
  split; [apply started_at; repeat (constructor; [cbn; intuition discriminate|]); constructor|].
  split; [vm_compute; reflexivity|]. split; [vm_compute; repeat (split; [first [exact I|discriminate]|]); exact I|]. split; [repeat constructor|].
  split; [vm_compute; reflexivity|]. split; [vm_compute; reflexivity|].
  split; [|vm_compute; reflexivity]. assert (ns_done q53 = bs53) as -> by (vm_compute; reflexivity). split; [vm_compute; reflexivity|].
  intros i x b Ex Eb. do 5 (destruct i as [|i]; [cbn in Ex, Eb; injection Ex as <-; injection Eb as <-; split; vm_compute; reflexivity|]). destruct i; discriminate.
Qed.

(** If two views have the same primaries and no batch lies between them, the reloaded node believes
    that it is still in the first of them, and forgets the registry of the second. *)
Theorem C53_same_primaries_refuted : exists os h done txns reg0 bs s', history rt toyH ser_a deser_a ser_a os h done [] /\
  Forall proper (audited done) /\ ordered_views (audited done) /\ genesis reg0 txns (audited done) /\
  same_batches reg0 (audited done) bs /\
  on_catchup_finished deser_a new_nreg txns (h_ledger h) = Ok s' /\
  view_after 0 bs = 4 /\ last_two ((0, reg0) :: entered reg0 0 bs) = [(0, [1; 2; 3; 4]); (4, [1; 2; 3; 4; 5])] /\
  n_cview s' = 0 /\ n_cbov s' = [(0, [1; 2; 3; 4])].
Proof.
  set (dn := [(envp 5, batp 0 1 [1] [1; 2; 3; 4]); (envp 6, batp 0 2 [1] [1; 2; 3; 4; 5]); (envp 6, batp 4 3 [1] [1; 2; 3; 4; 5])]).
  destruct (ends_history (map (fun x => ACatchup (fst x) (snd x)) dn) (reloads (fun s => n_cview s = 0 /\ n_cbov s = [(0, [1; 2; 3; 4])]) pool53) dn []
    ltac:(vm_compute; auto) eq_refl) as (h & Hi & HP).
  apply reloads_some in HP as (s' & R & P1 & P2).
  exists (map (fun x => ACatchup (fst x) (snd x)) dn), h, dn, pool53, [1; 2; 3; 4], [mkNB [] 0 None; mkNB [mkNop 5 (Some true)] 0 None; mkNB [] 4 None], s'.
  split; [exact Hi|]. split; [repeat (apply Forall_cons; [apply properp|]); constructor|].
  split; [intros i x y Ex Ey; do 3 (destruct i as [|i]; [cbn in Ex, Ey; injection Ex as <-; first [discriminate Ey|injection Ey as <-]; vm_compute; lia|]); destruct i; discriminate|].
  split; [exists (mkLV (repeat [7%N] 5) 1 (Some [1%N])); split; [split; [reflexivity|split; [reflexivity|discriminate]]|reflexivity]|].
  split. { split; [reflexivity|]. intros i x b Ex Eb. do 3 (destruct i as [|i]; [cbn in Ex, Eb; injection Ex as <-; injection Eb as <-; split; vm_compute; reflexivity|]). destruct i; discriminate. }
  split; [exact R|]. split; [reflexivity|]. split; [reflexivity|]. auto.
Qed.

(** If the first batch changes the validators, a reloaded node takes them for the validators with
    which the pool began, and may choose another primary for a later view than a node that has been
    running since. *)
Theorem C53_first_batch_refuted : exists os h done txns nops s0 reg0 q s1 outs s2, history rt toyH ser_a deser_a ser_a os h done [] /\
  Forall proper (audited done) /\ ordered_views (audited done) /\ primaries_change (audited done) /\
  reg0 = load_node_reg_from_pool_ledger (firstn 4 txns) /\ started s0 reg0 0 [(0, reg0)] /\
  nspecs 0 none_yet nops = Some q /\ careful reg0 0 none_yet nops /\ same_batches reg0 (audited done) (ns_done q) /\
  nrun s0 nops = Ok (s1, outs) /\ on_catchup_finished deser_a new_nreg txns (h_ledger h) = Ok s2 /\
  n_cbov s1 = [(0, [1; 2; 3; 4])] /\ n_cbov s2 = [(0, [1; 2; 3; 4; 5])] /\
  do_select_master_primary 4 (fun v => get v (n_cbov s1)) = Ok 1 /\ do_select_master_primary 4 (fun v => get v (n_cbov s2)) = Ok 5.
Proof.
  set (dn := [(envp 5, batp 0 1 [1] [1; 2; 3; 4; 5])]).
  set (tx := map (fun n => Some (mkNop n (Some true))) [1; 2; 3; 4] ++ [Some (mkNop 5 (Some true))]).
  destruct (ends_history (map (fun x => ACatchup (fst x) (snd x)) dn) (reloads (fun s => n_cbov s = [(0, [1; 2; 3; 4; 5])]) tx) dn []
    ltac:(vm_compute; auto) eq_refl) as (h & Hi & HP).
  apply reloads_some in HP as (s2 & R & P1).
  exists (map (fun x => ACatchup (fst x) (snd x)) dn), h, dn, tx, [NReq (mkNop 5 (Some true)); NApplied 0 None None; NCommit 0 None], s53, [1; 2; 3; 4].
  exists (mkNS [mkNB [mkNop 5 (Some true)] 0 None] [] [] false).
  eexists _, _, s2. split; [exact Hi|]. split; [repeat (apply Forall_cons; [apply properp|]); constructor|].
  split; [intros [|i] x y Ex Ey; [discriminate Ey|destruct i; discriminate]|].
  split; [split; [intros x [<-|[]]; discriminate|intros [|i] x y Ex Ey; [discriminate Ey|destruct i; discriminate]]|].
  split; [reflexivity|]. split; [apply started_at; repeat (constructor; [cbn; intuition discriminate|]); constructor|].
  split; [vm_compute; reflexivity|]. split; [vm_compute; repeat (split; [first [exact I|discriminate]|]); exact I|].
  split. { split; [vm_compute; reflexivity|]. intros i x b Ex Eb. destruct i as [|i]; [vm_compute in Ex, Eb; injection Ex as <-; injection Eb as <-; split; vm_compute; reflexivity|]. destruct i; discriminate. }
  split; [vm_compute; reflexivity|]. split; [exact R|]. split; [reflexivity|]. split; [exact P1|]. rewrite P1. split; vm_compute; reflexivity.
Qed.

Print Assumptions C52_registry_partial.
Print Assumptions C52_votes_partial.
Print Assumptions C52_next_primary_partial.
Print Assumptions C52_refuted.
Print Assumptions C53_reload_partial.
Print Assumptions C53_as_running_partial.
Print Assumptions C53_same_primaries_refuted.
Print Assumptions C53_first_batch_refuted.
