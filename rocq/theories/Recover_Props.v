(** C54: what a node finds on its disk after a crash. *)
From Coq Require Import List Arith Bool Lia.
From Verif Require Import Base Dict Recover_Model Recover_Spec Recover_Proofs.
Import ListNotations.

(** C54, the part that holds: if no crash falls between the addition of a transaction to a ledger and
    the commit of its state, nor into the first creation of the states, then after any number of
    crashes one start and one catch-up that is not interrupted, with nodes that have all the
    transactions this node has, give exactly the pool's ledgers, audit ledger and states.
    Missing: the other crash points (refuted below). *)
Theorem C54_recovers_partial : forall (txn St : Type) (up : nat -> St -> txn -> St) blank is_blank lids batches gen js m,
  (forall s, is_blank s = true <-> s = blank) -> NoDup lids -> (forall b, In b batches -> In (fst b) lids) ->
  legal txn St up is_blank lids batches gen (genesis_disk txn St blank gen) false js ->
  careful txn St up is_blank lids batches gen (genesis_disk txn St blank gen) js ->
  let d := jrun txn St up is_blank lids batches gen (genesis_disk txn St blank gen) js in
  0 < m -> length (d_audit d) <= m <= length batches ->
  (forall lid, In lid lids -> length (d_led d lid) <= length (agreed txn batches gen m lid)) ->
  at_batch txn St up blank lids batches gen
    (jrun txn St up is_blank lids batches gen d [(JStart, None); (JCatchup m, None)]) m.
Proof.
  intros txn St up blank is_blank lids batches gen js m BO ND BL LG CF d PM LM LL.
  destruct (careful_inv txn St up blank is_blank BO lids ND batches BL gen js _ false
              (inv_init txn St up blank lids batches gen) LG CF) as (b' & I).
  pose proof (start_inv txn St up blank is_blank BO lids ND batches gen _ b' I) as I'.
  fold d in I'. unfold jrun. cbn [fold_left].
  assert (EA : d_audit (jstep txn St up is_blank lids batches gen d (JStart, None)) = d_audit d).
  { unfold jstep. cbn [fst snd job_writes]. rewrite performs_audit, start_audits, app_nil_r. reflexivity. }
  assert (EL : forall lid, d_led (jstep txn St up is_blank lids batches gen d (JStart, None)) lid = d_led d lid).
  { intros lid. unfold jstep. cbn [fst snd job_writes]. rewrite performs_led, start_txns, app_nil_r. reflexivity. }
  apply catchup_at; [exact ND | exact I' | rewrite EA; exact LM | exact PM|].
  intros lid IL. rewrite EL. exact (LL lid IL).
Qed.

(** ... and at any moment of such a history, once the node has started, every state is the one its
    ledger describes *)
Theorem C54_states_partial : forall (txn St : Type) (up : nat -> St -> txn -> St) blank is_blank lids batches gen js,
  (forall s, is_blank s = true <-> s = blank) -> NoDup lids -> (forall b, In b batches -> In (fst b) lids) ->
  legal txn St up is_blank lids batches gen (genesis_disk txn St blank gen) false js ->
  careful txn St up is_blank lids batches gen (genesis_disk txn St blank gen) js ->
  states_match txn St up blank lids
    (jrun txn St up is_blank lids batches gen (jrun txn St up is_blank lids batches gen (genesis_disk txn St blank gen) js) [(JStart, None)]).
Proof.
  intros txn St up blank is_blank lids batches gen js BO ND BL LG CF.
  destruct (careful_inv txn St up blank is_blank BO lids ND batches BL gen js _ false
              (inv_init txn St up blank lids batches gen) LG CF) as (b' & I).
  pose proof (start_inv txn St up blank is_blank BO lids ND batches gen _ b' I) as I'.
  intros lid IL. destruct (i_st _ _ _ _ _ _ _ _ _ I' lid IL) as [E|[X _]]; [exact E | discriminate X].
Qed.

(** the index of requests, up to crashes between the addition of a transaction and of its entry *)
Theorem C54_index_partial : forall (txn St : Type) (up : nat -> St -> txn -> St) blank is_blank lids batches gen js,
  NoDup lids ->
  careful_index txn St up is_blank lids batches gen (genesis_disk txn St blank gen) js ->
  indexed txn St lids gen (jrun txn St up is_blank lids batches gen (genesis_disk txn St blank gen) js).
Proof.
  intros txn St up blank is_blank lids batches gen js ND CF.
  apply careful_indexed; [exact ND | | | exact CF].
  - intros lid i _ L. cbn [genesis_disk d_led] in L. lia.
  - intros lid _. exists []. rewrite app_nil_r. reflexivity.
Qed.

(** ** Crash points that are never repaired
    Transactions are numbers and a state is the list of the transactions that were applied to it. *)
Definition up1 (_ : nat) (s : list nat) (t : nat) : list nat := s ++ [t].
Definition blank1 (s : list nat) : bool := match s with [] => true | _ => false end.
Lemma blank1_ok : forall s, blank1 s = true <-> s = [].
Proof. intros [|a s]; cbn; split; congruence. Qed.
Definition gen1 (lid : nat) : list nat := if lid =? 1 then [9] else [].
Notation run1 bs := (jrun nat (list nat) up1 blank1 [0; 1] bs gen1).
Notation step1 bs := (jstep nat (list nat) up1 blank1 [0; 1] bs gen1).
Notation legal1 bs := (legal nat (list nat) up1 blank1 [0; 1] bs gen1).
Notation gd1 := (genesis_disk nat (list nat) [] gen1).
Lemma nodup01 : NoDup [0; 1].
Proof. repeat constructor; cbn; intuition congruence. Qed.

Section Lost.
  Variable later : list (nat * list nat).
  Hypothesis no5 : forall b, In b later -> ~ In 5 (snd b).
  Notation bs := ((1, [5]) :: later).

  Definition lost (d : disk nat (list nat)) : Prop :=
    In 5 (d_led d 1) /\ 2 <= length (d_led d 1) /\ d_st d 1 <> [] /\ ~ In 5 (d_st d 1).
  Lemma fold_up1 : forall ts s, fold_left (up1 1) ts s = s ++ ts.
  Proof. induction ts as [|t ts IH]; intros s; cbn [fold_left]; [rewrite app_nil_r; reflexivity|]. rewrite IH. unfold up1. rewrite <- app_assoc. reflexivity. Qed.
  Lemma state_after_in : forall (P : list nat -> Prop) ws s, P s -> (forall x, In (WState 1 x) ws -> P x) -> P (state_after nat (list nat) 1 s ws).
  Proof.
    intros P. induction ws as [|w ws IH]; intros s H A; [exact H|].
    assert (A' : forall x, In (WState 1 x) ws -> P x) by (intros x I; apply A; right; exact I).
    destruct w; cbn [state_after]; try exact (IH s H A'). destruct (lid =? 1) eqn:E; [|exact (IH s H A')].
    apply Nat.eqb_eq in E. subst lid. apply IH; [apply A; left; reflexivity | exact A'].
  Qed.
  Lemma later5 : forall k, ~ In 5 (flat_map (fun b => if fst b =? 1 then snd b else []) (firstn k later)).
  Proof.
    intros k I. apply in_flat_map in I as (b & Ib & I). destruct (fst b =? 1); [|destruct I].
    apply (no5 b); [|exact I]. rewrite <- (firstn_skipn k later). apply in_or_app. left. exact Ib.
  Qed.
  Lemma agreed_lost : forall k, agreed nat bs gen1 (S k) 1 = [9; 5] ++ flat_map (fun b => if fst b =? 1 then snd b else []) (firstn k later).
  Proof. intros k. reflexivity. Qed.
  Lemma skipn_in : forall {A} n (l : list A) x, In x (skipn n l) -> In x l.
  Proof. intros A n l x I. rewrite <- (firstn_skipn n l). apply in_or_app. right. exact I. Qed.
  Lemma add_states : forall ts pos s x, In (WState 1 x) (add_writes nat (list nat) up1 1 pos s ts) -> exists n, x = s ++ firstn n ts.
  Proof.
    induction ts as [|t ts IH]; intros pos s x I; [destruct I|]. cbn [add_writes] in I.
    destruct I as [X|[X|[X|I]]]; try discriminate X.
    - injection X as <-. exists 1. reflexivity.
    - apply IH in I as (n & ->). exists (S n). unfold up1. cbn [firstn]. rewrite <- app_assoc. reflexivity.
  Qed.
  Lemma firstn_in : forall {A} n (l : list A) x, In x (firstn n l) -> In x l.
  Proof. intros A n l x I. rewrite <- (firstn_skipn n l). apply in_or_app. left. exact I. Qed.

  Lemma lost_step : forall d j b rest, lost d -> legal1 bs d b ((j, None) :: rest) -> lost (step1 bs d (j, None)).
  Proof.
    intros d j b rest (H5 & H2 & HB & HN) LG.
    assert (ST : forall x, In (WState 1 x) (job_writes nat (list nat) up1 blank1 [0; 1] bs gen1 d j) -> x <> [] /\ ~ In 5 x).
    { intros x I. destruct j as [| |m]; cbn [job_writes] in I.
      - unfold start_writes in I. cbn [flat_map] in I. rewrite app_nil_r in I. apply in_app_or in I as [I|I].
        + exfalso. destruct (blank1 (d_st d 0)); [|destruct I]. apply (restore_off nat (list nat) up1 1 0 _ _ ltac:(discriminate)) in I. congruence.
        + destruct (blank1 (d_st d 1)) eqn:B; [|destruct I]. apply blank1_ok in B. congruence.
      - inversion LG as [| | ? ? ? LA EL _|]; subst.
        destruct (length (d_audit d)) as [|k] eqn:EK.
        + rewrite (EL 1 ltac:(right; left; reflexivity)) in H2. cbn in H2. lia.
        + cbn [nth_error] in I. destruct (nth_error later k) as [[l ts]|] eqn:N; [|destruct I].
          unfold commit_writes in I. apply in_app_or in I as [I|[I|[I|[I|[]]]]]; try discriminate I.
          * apply in_map_iff in I as (t & X & _). discriminate X.
          * injection I as -> <-. rewrite fold_up1. split; [destruct (d_st d 1); [congruence | discriminate]|].
            intros X. apply in_app_or in X as [X|X]; [exact (HN X)|]. exact (no5 _ (nth_error_In _ _ N) X).
      - destruct (catchup_split nat (list nat) up1 [0; 1] nodup01 bs gen1 d m 1 ltac:(right; left; reflexivity)) as (a & b0 & E & Oa & Ob).
        rewrite E in I. apply in_app_or in I as [I|I]; [apply Oa in I; congruence|].
        apply in_app_or in I as [I|I]; [|apply Ob in I; congruence].
        unfold ledger_writes in I. destruct (get 1 _) as [n|] eqn:EG; [|destruct I].
        apply add_states in I as (q & ->). split; [destruct (d_st d 1); [congruence | discriminate]|].
        intros X. apply in_app_or in X as [X|X]; [exact (HN X)|]. apply firstn_in in X.
        destruct m as [|m]; [discriminate EG|].
        rewrite agreed_lost in X. destruct (length (d_led d 1)) as [|[|L]] eqn:EL; [lia|lia|].
        destruct n as [|[|n]]; [destruct X | cbn in X; destruct X |].
        cbn [firstn app skipn] in X. apply skipn_in, firstn_in in X. exact (later5 m X). }
    unfold jstep. cbn [fst snd]. set (ws := job_writes nat (list nat) up1 blank1 [0; 1] bs gen1 d j) in *. clearbody ws.
    unfold lost. rewrite performs_led, performs_st. split; [apply in_or_app; left; exact H5|].
    split; [rewrite app_length; lia|].
    exact (state_after_in (fun s => s <> [] /\ ~ In 5 s) ws (d_st d 1) (conj HB HN) ST).
  Qed.
  Lemma lost_run : forall js d b, lost d -> legal1 bs d b js -> uncut js -> lost (run1 bs d js).
  Proof.
    induction js as [|[j c] js IH]; intros d b L LG U; [exact L|].
    assert (c = None) as -> by exact (U j c (or_introl eq_refl)).
    assert (LN : legal1 bs (step1 bs d (j, None)) true js) by (inversion LG; subst; assumption).
    refine (IH (step1 bs d (j, None)) true (lost_step d j b js L LG) LN _). intros j' c' I. exact (U j' c' (or_intror I)).
  Qed.
End Lost.

(** A crash between the addition of a transaction and the commit of its state, while a batch is
    committed or during catch-up, leaves the state without that transaction, whatever the pool orders
    later and however often the node is restarted and catches up without being interrupted. *)
Theorem C54_state_refuted : forall later, (forall b, In b later -> ~ In 5 (snd b)) ->
  forall crash, crash = (JCommit, Some 1) \/ crash = (JCatchup 1, Some 2) ->
  let bs := (1, [5]) :: later in let js := [(JStart, None); crash; (JStart, None)] in
  legal1 bs gd1 false js /\
  forall js', uncut js' -> legal1 bs (run1 bs gd1 js) true js' ->
    In 5 (d_led (run1 bs (run1 bs gd1 js) js') 1) /\ ~ In 5 (d_st (run1 bs (run1 bs gd1 js) js') 1) /\
    ~ states_match nat (list nat) up1 [] [0; 1] (run1 bs (run1 bs gd1 js) js').
Proof.
  intros later N5 crash EC bs js. split.
  - unfold js. apply legal_start. cbv beta match. destruct EC as [-> | ->].
    + apply legal_commit; [cbn; lia | intros lid [<-|[<-|[]]]; reflexivity|]. cbv beta match. apply legal_start, legal_nil.
    + apply legal_catchup; [cbn; lia|]. cbv beta match. apply legal_start, legal_nil.
  - intros js' U LG.
    assert (L0 : lost (run1 bs gd1 js)).
    { unfold js. destruct EC as [-> | ->]; unfold lost; cbn; split; try tauto; split; try lia; split; try discriminate; intros [X|[]]; discriminate X. }
    destruct (lost_run later N5 js' _ true L0 LG U) as (A & _ & _ & D). split; [exact A|]. split; [exact D|].
    intros M. specialize (M 1 (or_intror (or_introl eq_refl))). unfold state_of in M. rewrite fold_up1 in M. cbn [app] in M.
    apply D. exact (eq_ind_r (fun l => In 5 l) A M).
Qed.

(** A crash during the first creation of a state from its ledger leaves that state unfinished: at the
    next start it is not empty, so it is left alone. *)
Definition gen2 (lid : nat) : list nat := if lid =? 1 then [9; 5] else [].
Theorem C54_creation_refuted : let d := jrun nat (list nat) up1 blank1 [0; 1] [] gen2 (genesis_disk nat (list nat) [] gen2) [(JStart, Some 1)] in
  d_led d 1 = [9; 5] /\
  forall n, d_st (jrun nat (list nat) up1 blank1 [0; 1] [] gen2 d (repeat (JStart, None) n)) 1 = [9].
Proof.
  split; [reflexivity|]. intros n.
  set (d := jrun nat (list nat) up1 blank1 [0; 1] [] gen2 (genesis_disk nat (list nat) [] gen2) [(JStart, Some 1)]).
  assert (H : forall n d, d_st d 1 = [9] -> d_led d 0 = [] -> d_st (jrun nat (list nat) up1 blank1 [0; 1] [] gen2 d (repeat (JStart, None) n)) 1 = [9]).
  { clear n d. induction n as [|n IH]; intros d E0 E1; [exact E0|]. cbn [repeat]. unfold jrun. cbn [fold_left]. apply IH.
    - unfold jstep. cbn [fst snd job_writes]. rewrite (start_state nat (list nat) up1 [] blank1 blank1_ok [0; 1] nodup01 d 1 (or_intror (or_introl eq_refl))), E0. reflexivity.
    - unfold jstep. cbn [fst snd job_writes]. rewrite performs_led, start_txns, E1. reflexivity. }
  apply H; reflexivity.
Qed.

(** A crash after the commit of the state and before the audit transaction leaves the ledger ahead of
    the audit ledger; a catch-up with nodes that have not ordered that batch does not change this. *)
Theorem C54_ahead_refuted : let bs := [(1, [5]); (1, [6])] in
  let js := [(JStart, None); (JCommit, None); (JCommit, Some 2); (JStart, None); (JCatchup 1, None)] in
  legal1 bs gd1 false js /\
  d_led (run1 bs gd1 js) 1 = [9; 5; 6] /\ d_audit (run1 bs gd1 js) = agreed_audit nat [0; 1] bs gen1 1 /\
  ~ at_batch nat (list nat) up1 [] [0; 1] bs gen1 (run1 bs gd1 js) 1 /\
  ~ at_batch nat (list nat) up1 [] [0; 1] bs gen1 (run1 bs gd1 js) 2 /\
  at_batch nat (list nat) up1 [] [0; 1] bs gen1 (run1 bs gd1 (js ++ [(JCatchup 2, None)])) 2.
Proof.
  cbv zeta. split.
  - apply legal_start. cbv beta match. apply legal_commit; [cbn; lia | intros lid [<-|[<-|[]]]; reflexivity|]. cbv beta match.
    apply legal_commit; [cbn; lia | intros lid [<-|[<-|[]]]; reflexivity|]. cbv beta match.
    apply legal_start. cbv beta match. apply legal_catchup; [cbn; lia|]. apply legal_nil.
  - split; [reflexivity|]. split; [reflexivity|]. split; [|split].
    + intros [_ H]. destruct (H 1 (or_intror (or_introl eq_refl))) as [X _]. cbn in X. discriminate X.
    + intros [H _]. cbn in H. discriminate H.
    + split; [reflexivity|]. intros lid [<-|[<-|[]]]; split; reflexivity.
Qed.

(** A crash after the audit transaction and before the index: the request stays unknown. *)
Theorem C54_index_refuted : let bs := [(1, [5]); (1, [6])] in
  let js := [(JStart, None); (JCommit, Some 3); (JStart, None); (JCatchup 2, None)] in
  legal1 bs gd1 false js /\ at_batch nat (list nat) up1 [] [0; 1] bs gen1 (run1 bs gd1 js) 2 /\
  d_index (run1 bs gd1 js) = [(1, 2)] /\ ~ indexed nat (list nat) [0; 1] gen1 (run1 bs gd1 js).
Proof.
  cbv zeta. split; [|split; [|split]].
  - apply legal_start. cbv beta match. apply legal_commit; [cbn; lia | intros lid [<-|[<-|[]]]; reflexivity|]. cbv beta match.
    apply legal_start. cbv beta match. apply legal_catchup; [cbn; lia|]. apply legal_nil.
  - split; [reflexivity|]. intros lid [<-|[<-|[]]]; split; reflexivity.
  - reflexivity.
  - intros H. destruct (H 1 1 ltac:(right; left; reflexivity) ltac:(cbn; lia)) as [X|[]]. discriminate X.
Qed.

(** ** Concrete cases *)
(** a history with three crashes at harmless points, and what one start and one catch-up make of it *)
Definition bs54 : list (nat * list nat) := [(1, [5; 6]); (0, [7]); (1, [8])].
Definition js54 : list (job * option nat) :=
  [(JStart, None); (JCommit, Some 3); (JStart, None); (JCatchup 2, Some 4); (JStart, None); (JCatchup 2, None); (JCommit, Some 2)].
Example C54_example :
  legal1 bs54 gd1 false js54 /\ careful nat (list nat) up1 blank1 [0; 1] bs54 gen1 gd1 js54 /\
  length (d_audit (run1 bs54 gd1 js54)) = 2 /\ d_led (run1 bs54 gd1 js54) 1 = [9; 5; 6; 8] /\
  at_batch nat (list nat) up1 [] [0; 1] bs54 gen1 (run1 bs54 (run1 bs54 gd1 js54) [(JStart, None); (JCatchup 3, None)]) 3.
Proof.
  assert (LG : legal1 bs54 gd1 false js54).
  { apply legal_start. cbv beta match. apply legal_commit; [cbn; lia | intros lid [<-|[<-|[]]]; reflexivity|]. cbv beta match.
    apply legal_start. cbv beta match. apply legal_catchup; [cbn; lia|]. cbv beta match.
    apply legal_start. cbv beta match. apply legal_catchup; [cbn; lia|]. cbv beta match.
    apply legal_commit; [cbn; lia | intros lid [<-|[<-|[]]]; reflexivity|]. apply legal_nil. }
  assert (CF : careful nat (list nat) up1 blank1 [0; 1] bs54 gen1 gd1 js54).
  { cbn [careful js54]. repeat (split; [first [exact Logic.I | split; [discriminate | intros lid [<-|[<-|[]]]; reflexivity]]|]). exact Logic.I. }
  split; [exact LG|]. split; [exact CF|]. split; [reflexivity|]. split; [reflexivity|].
  apply (C54_recovers_partial nat (list nat) up1 [] blank1 [0; 1] bs54 gen1 js54 3 blank1_ok nodup01).
  - intros b [<-|[<-|[<-|[]]]]; cbn; tauto.
  - exact LG.
  - exact CF.
  - lia.
  - split; cbn; lia.
  - intros lid [<-|[<-|[]]]; cbn; lia.
Qed.
Example C54_index_example : careful_index nat (list nat) up1 blank1 [0; 1] bs54 gen1 gd1
    [(JStart, Some 0); (JStart, None); (JCommit, Some 5); (JStart, None); (JCatchup 3, Some 5)] /\
  d_index (run1 bs54 gd1 [(JStart, Some 0); (JStart, None); (JCommit, Some 5); (JStart, None); (JCatchup 3, Some 5)]) = [(1, 1); (1, 2); (0, 0)].
Proof.
  split; [|reflexivity]. cbn [careful_index].
  repeat (split; [first [exact Logic.I | intros lid [<-|[<-|[]]]; reflexivity]|]). exact Logic.I.
Qed.

Print Assumptions C54_recovers_partial.
Print Assumptions C54_states_partial.
Print Assumptions C54_index_partial.
Print Assumptions C54_state_refuted.
Print Assumptions C54_creation_refuted.
Print Assumptions C54_ahead_refuted.
Print Assumptions C54_index_refuted.
