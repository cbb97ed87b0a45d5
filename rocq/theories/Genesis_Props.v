(** C86: nodes start with the transactions of the genesis file.
    Full statement: a genesis file made of transactions gives them back, numbered for each author; a node started with it,
    however often it is stopped, crashes and is started again, has them in its ledger before all others, and so have all nodes. *)
From Coq Require Import List Arith Bool Lia.
From Verif Require Import Genesis_Model Genesis_Spec Genesis_Proofs.
Import ListNotations.

Section T.
  Variable txn : Type.
  Variable ser : txn -> list nat.
  Variable de : list nat -> option txn.
  Variable author : txn -> nat.
  Variable with_number : txn -> nat -> txn.

  (** what is put into the file is read from it, after what was there if the file is not reset *)
  Theorem C86_created : serializes txn ser de -> forall old reset txns s,
    create_file txn ser de author with_number old reset txns = Some s ->
    exists before, genesis_of txn de old = Some before /\
      genesis_of txn de s = Some ((if reset then [] else before) ++ numbered txn author with_number (fun _ => 0) txns).
  Proof. intros OK old reset txns s. exact (create_ok txn ser de author with_number OK old reset txns s). Qed.
  (** and this fails exactly if the file there cannot be read, or is one character long *)
  Theorem C86_create_fails : forall old reset txns,
    create_file txn ser de author with_number old reset txns = None <-> length old = 1 \/ genesis_of txn de old = None.
  Proof. exact (create_fails txn ser de author with_number). Qed.
  (** the transactions keep their order, and each author's are numbered from 1 *)
  Theorem C86_numbered : forall ts i t, nth_error ts i = Some t ->
    nth_error (numbered txn author with_number (fun _ => 0) ts) i
    = Some (with_number t (S (length (filter (fun x => author x =? author t) (firstn i ts))))).
  Proof.
    intros ts i t.
    assert (G : forall ts i c, nth_error ts i = Some t -> nth_error (numbered txn author with_number c ts) i
              = Some (with_number t (S (c (author t) + length (filter (fun x => author x =? author t) (firstn i ts)))))).
    { clear ts i. induction ts as [|x ts IH]; intros [|i] c E; try discriminate; cbn [numbered nth_error firstn filter].
      - injection E as ->. simpl. rewrite Nat.add_0_r. reflexivity.
      - cbn zeta. cbn [nth_error] in *. rewrite (IH i _ E). f_equal. f_equal. rewrite (Nat.eqb_sym (author t) (author x)).
        destruct (Nat.eqb_spec (author x) (author t)) as [->|Ne]; cbn [length]; lia. }
    apply G.
  Qed.
  Theorem C86_length : forall ts, length (numbered txn author with_number (fun _ => 0) ts) = length ts.
  Proof. intros ts. generalize (fun _ : nat => 0). induction ts as [|t ts IH]; intros c; [reflexivity|]. simpl. rewrite IH. reflexivity. Qed.

  (** a node that runs has the genesis transactions first, if no start was cut short while it wrote them *)
  Theorem C86_starts_partial : forall s ts os, genesis_of txn de s = Some ts -> Forall (whole txn ts) os ->
    let n := run txn de (fresh txn (Some s)) os in
    (up txn n = true -> prefix txn ts (log txn n)) /\
    ((forall t, ~ In (Add txn t) os) -> log txn n = ts \/ log txn n = [] /\ up txn n = false).
  Proof.
    intros s ts os G W. cbn zeta. split.
    - intros U. destruct (inv_run txn de s ts os (fresh txn (Some s)) G W) as (_ & [P|[_ P]]); [|exact P|congruence].
      split; [reflexivity|]. right. split; reflexivity.
    - intros NA.
      assert (H : forall os n, Forall (whole txn ts) os -> (forall t, ~ In (Add txn t) os) -> file txn n = Some s ->
                (log txn n = ts \/ log txn n = [] /\ up txn n = false) ->
                (log txn (run txn de n os) = ts \/ log txn (run txn de n os) = [] /\ up txn (run txn de n os) = false)).
      { clear os W NA. induction os as [|o os IH]; intros n W NA F P; [exact P|]. inversion W as [|? ? W1 W2]; subst.
        change (run txn de n (o :: os)) with (run txn de (step txn de n o) os). apply IH; [exact W2|intros t I; apply (NA t); right; exact I| |].
        - destruct o as [cut| |t|x]; cbn [step]; [|exact F|exfalso; apply (NA t); left; reflexivity|destruct W1].
          unfold start. destruct (up txn n); [exact F|]. destruct (log txn n); [|exact F]. rewrite F.
          destruct (adds txn de (clean_lines s)). destruct cut; reflexivity.
        - destruct o as [cut| |t|x]; cbn [step]; [| |exfalso; apply (NA t); left; reflexivity|destruct W1].
          + unfold start. destruct (up txn n) eqn:U; [left; destruct P as [P|[_ P]]; [exact P|discriminate]|].
            destruct (log txn n) as [|t0 l] eqn:L.
            * rewrite F, (adds_all txn de _ _ G). destruct cut as [k|]; cbn [log up]; [|left; reflexivity].
              destruct W1 as [->|W1]; [right; split; reflexivity|]. left. apply firstn_all2. exact W1.
            * cbn [log up]. left. destruct P as [P|[P _]]; [exact P|discriminate].
          + cbn [log up]. destruct P as [P|[P _]]; [left; exact P|right; split; [exact P|reflexivity]]. }
      apply H; [exact W|exact NA|reflexivity|]. right. split; reflexivity.
  Qed.
  (** so nodes with the same file start with the same ledger *)
  Theorem C86_same_partial : forall s ts os os', genesis_of txn de s = Some ts -> Forall (whole txn ts) os -> Forall (whole txn ts) os' ->
    let n := run txn de (fresh txn (Some s)) os in let n' := run txn de (fresh txn (Some s)) os' in
    up txn n = true -> up txn n' = true -> (forall t, ~ In (Add txn t) os) -> (forall t, ~ In (Add txn t) os') -> log txn n = log txn n'.
  Proof.
    intros s ts os os' G W W'. cbn zeta. intros U U' N N'.
    destruct (C86_starts_partial s ts os G W) as [_ H]. destruct (C86_starts_partial s ts os' G W') as [_ H'].
    destruct (H N) as [->|[_ E]]; [|congruence]. destruct (H' N') as [->|[_ E]]; [reflexivity|congruence].
  Qed.
  (** whatever happens, the ledger keeps what it has, and the genesis file counts for an empty ledger only *)
  Theorem C86_kept : forall n os, log txn n <> [] -> prefix txn (log txn n) (log txn (run txn de n os)).
  Proof. intros n os. exact (run_grows txn de os n). Qed.
  (** after a crash while they are written, the rest of the genesis transactions is never written *)
  Theorem C86_crash_refuted : forall s ts k os, genesis_of txn de s = Some ts -> 0 < k < length ts -> (forall t, ~ In (Add txn t) os) ->
    log txn (run txn de (fresh txn (Some s)) (Start txn (Some k) :: os)) = firstn k ts /\ firstn k ts <> ts /\
    up txn (run txn de (fresh txn (Some s)) (Start txn (Some k) :: os ++ [Start txn None])) = true.
  Proof.
    intros s ts k os G K NA.
    assert (N : firstn k ts <> []) by (intros E; apply (f_equal (@length _)) in E; rewrite firstn_length in E; simpl in E; lia).
    assert (H : forall os n, (forall t, ~ In (Add txn t) os) -> log txn n = firstn k ts -> log txn (run txn de n os) = firstn k ts).
    { clear os NA. induction os as [|o os IH]; intros n NA E; [exact E|]. change (run txn de n (o :: os)) with (run txn de (step txn de n o) os).
      apply IH; [intros t I; apply (NA t); right; exact I|]. destruct o as [cut| |t|x]; cbn [step]; try exact E.
      - unfold start. destruct (up txn n); [exact E|]. destruct (log txn n) eqn:L; [congruence|]. exact E.
      - exfalso. apply (NA t). left. reflexivity. }
    assert (S1 : log txn (step txn de (fresh txn (Some s)) (Start txn (Some k))) = firstn k ts).
    { cbn [step]. unfold start, fresh. cbn [up log file]. rewrite (adds_all txn de _ _ G). reflexivity. }
    split; [apply (H os _ NA S1)|]. split.
    - intros E. apply (f_equal (@length _)) in E. rewrite firstn_length in E. lia.
    - change (Start txn (Some k) :: os ++ [Start txn None]) with ((Start txn (Some k) :: os) ++ [Start txn None]).
      unfold run. rewrite fold_left_app. fold (run txn de (fresh txn (Some s)) (Start txn (Some k) :: os)).
      cbn [fold_left step]. unfold start. destruct (up txn (run txn de (fresh txn (Some s)) (Start txn (Some k) :: os))) eqn:U; [exact U|].
      assert (L : log txn (run txn de (fresh txn (Some s)) (Start txn (Some k) :: os)) = firstn k ts) by apply (H os _ NA S1).
      rewrite L. destruct (firstn k ts); [contradiction|reflexivity].
  Qed.
  (** a file with a line that cannot be read makes the first start fail, not the second: the lines before it are taken for all *)
  Theorem C86_bad_line_refuted : forall s ts, genesis_of txn de s = None -> fst (adds txn de (clean_lines s)) = ts -> ts <> [] ->
    let n1 := run txn de (fresh txn (Some s)) [Start txn None] in let n2 := run txn de (fresh txn (Some s)) [Start txn None; Start txn None] in
    up txn n1 = false /\ up txn n2 = true /\ log txn n2 = ts.
  Proof.
    intros s ts G A N. cbn zeta.
    assert (B : snd (adds txn de (clean_lines s)) = false).
    { unfold genesis_of in G. clear A N. induction (clean_lines s) as [|l ls IH]; simpl in *; [discriminate|]. destruct (de l); [|reflexivity].
      destruct (all_some txn (map de ls)); [discriminate|]. destruct (adds txn de ls). simpl in *. auto. }
    unfold run. cbn [fold_left step]. unfold start at 1 3 5. unfold fresh. cbn [up log file].
    destruct (adds txn de (clean_lines s)) as [x ok]. cbn [fst snd] in A, B. subst x ok. cbn [up log].
    split; [reflexivity|]. unfold start. cbn [up log file]. destruct ts as [|t ts]; [contradiction|]. split; reflexivity.
  Qed.
End T.

(** An example: a transaction is its author and its number. *)
Definition ser1 (t : nat * nat) : list nat := [20 + fst t; 20 + snd t].
Definition de1 (l : list nat) : option (nat * nat) :=
  match l with [a; n] => if (20 <=? a) && (20 <=? n) then Some (a - 20, n - 20) else None | _ => None end.
Definition with1 (t : nat * nat) (n : nat) : nat * nat := (fst t, n).
Example ex_serializes : serializes (nat * nat) ser1 de1.
Proof.
  intros (a, n). unfold ser1, de1. cbn [fst snd]. split; [discriminate|]. split; [intros [H|[H|[]]]; lia|]. split; [intros [H|[H|[]]]; lia|].
  rewrite (proj2 (Nat.leb_le 20 (20 + a))), (proj2 (Nat.leb_le 20 (20 + n))) by lia. cbn [andb]. f_equal. f_equal; lia.
Qed.
Definition ex_file : list nat := [24; 25; CR; LF; 26; 27].
Example ex_created : exists s, create_file (nat * nat) ser1 de1 fst with1 ex_file false [(4, 0); (6, 0); (4, 0)] = Some s /\
  genesis_of (nat * nat) de1 s = Some [(4, 5); (6, 7); (4, 1); (6, 1); (4, 2)].
Proof. eexists. split; reflexivity. Qed.
Example ex_start : let os := [Start _ (Some 0); Start _ None; Add _ (9, 9); Stop _; Start _ (Some 5); Start _ None] in
  Forall (whole (nat * nat) [(4, 5); (6, 7)]) os /\ log _ (run _ de1 (fresh _ (Some ex_file)) os) = [(4, 5); (6, 7); (9, 9)].
Proof. split; [repeat constructor; cbn; lia|reflexivity]. Qed.
Example ex_bad : genesis_of (nat * nat) de1 ([24; 25; LF; 32; LF] ++ ex_file) = None /\ fst (adds _ de1 (clean_lines ([24; 25; LF; 32; LF] ++ ex_file))) = [(4, 5)].
Proof. split; reflexivity. Qed.
(** adding to a file that has transactions numbers them from 1 again: two of one author have the same number *)
Theorem C86_number_refuted : exists s, create_file (nat * nat) ser1 de1 fst with1 [24; 21; CR; LF] false [(4, 0)] = Some s /\
  genesis_of (nat * nat) de1 s = Some [(4, 1); (4, 1)].
Proof. eexists. split; reflexivity. Qed.
(** an empty line cannot be extended or replaced, not even if the file is to be reset *)
Theorem C86_one_line_refuted : genesis_of (nat * nat) de1 [LF] = Some [] /\ create_file (nat * nat) ser1 de1 fst with1 [LF] true [(4, 0)] = None.
Proof. split; reflexivity. Qed.

Print Assumptions C86_created.
Print Assumptions C86_create_fails.
Print Assumptions C86_numbered.
Print Assumptions C86_length.
Print Assumptions C86_starts_partial.
Print Assumptions C86_same_partial.
Print Assumptions C86_kept.
Print Assumptions C86_crash_refuted.
Print Assumptions C86_bad_line_refuted.
Print Assumptions C86_number_refuted.
Print Assumptions C86_one_line_refuted.
