(** Proofs about messages for protocol instances (C92). *)
From Coq Require Import List Arith Bool Lia.
From Verif Require Import Dict Route_Model Route_Spec.
Import ListNotations.

Definition dest (m : msg) : option nat := match m_kind m with Change => Some 0 | _ => m_inst m end.

Lemma set_old_keys {V} k (v : V) d : get k d <> None -> map fst (set k v d) = map fst d.
Proof.
  induction d as [|(k0, v0) d IH]; cbn; [congruence|]. destruct (Nat.eqb_spec k k0) as [->|N]; [reflexivity|]. intros G. cbn. rewrite (IH G). reflexivity.
Qed.
Lemma get_map_all (m : msg) d i : get i (map (fun e => (fst e, snd e ++ [m])) d) = option_map (fun l => l ++ [m]) (get i d).
Proof. induction d as [|(k0, v0) d IH]; cbn; [reflexivity|]. destruct (i =? k0); [reflexivity|exact IH]. Qed.
Lemma get_seq {V} n (d : dict V) i : map fst d = seq 0 n -> (get i d = None <-> n <= i).
Proof. intros E. rewrite get_none, E, in_seq. lia. Qed.

(** *** a queue that is handed over *)
Lemma dispatch_all_spec l : forall s i x, get i (reps s) = Some x -> (forall m, In m l -> kept m = true -> dest m = Some i) ->
  exists r, dispatch_all l s = Node r (future s) (required s) /\ map fst r = map fst (reps s) /\
            forall j, get j r = if j =? i then Some (x ++ filter kept l) else get j (reps s).
Proof.
  induction l as [|m l IH]; intros s i x G D.
  - exists (reps s). cbn. destruct s; cbn in *. repeat split. intros j. rewrite app_nil_r. destruct (Nat.eqb_spec j i) as [->|]; congruence.
  - cbn [dispatch_all filter]. destruct (kept m) eqn:K.
    + assert (E : dispatch m s = Node (set i (x ++ [m]) (reps s)) (future s) (required s)).
      { pose proof (D m (or_introl eq_refl) K) as Dm. unfold dispatch, send_to, kept, dest in *.
        destruct (m_kind m); try discriminate; [rewrite Dm|injection Dm as <-]; rewrite G; unfold pass_one; rewrite G; reflexivity. }
      rewrite E.
      destruct (IH (Node (set i (x ++ [m]) (reps s)) (future s) (required s)) i (x ++ [m])) as (r & R1 & R2 & R3).
      * cbn [reps]. rewrite get_set, Nat.eqb_refl. reflexivity.
      * intros m' I. apply D. right. exact I.
      * exists r. rewrite R1. split; [reflexivity|]. split; [rewrite R2; cbn [reps]; apply set_old_keys; congruence|].
        intros j. rewrite R3. cbn [reps]. rewrite get_set. destruct (j =? i); [rewrite <- app_assoc; reflexivity|reflexivity].
    + assert (E : dispatch m s = s) by (unfold dispatch, kept in *; destruct (m_kind m); try discriminate; reflexivity).
      rewrite E. apply IH; [exact G|]. intros m' I. apply D. right. exact I.
Qed.

(** *** the invariant: [k] instances are there, and [T i] is what [i] is, or will be, handed *)
Record inv (k n : nat) (T : nat -> list msg) (s : node) : Prop := Inv {
  i_req : required s = n;
  i_keys : map fst (reps s) = seq 0 k;
  i_there : forall i, i < k -> get i (reps s) = Some (T i);
  i_later : forall i, k <= i -> filter kept (waiting i s) = T i;
  i_dest : forall i m, In m (waiting i s) -> kept m = true -> dest m = Some i }.
Definition clean (n : nat) (s : node) : Prop := forall i, i < n -> get i (future s) = None.

Lemma grow_inv k n T s : inv k n T s -> inv (S k) n T (grow s k).
Proof.
  intros [R K Th L D]. unfold grow, add_replica, process_stashed. cbn [future reps required].
  assert (G0 : get k (reps s) = None) by (apply (get_seq k); [exact K|lia]).
  assert (K' : map fst (set k [] (reps s)) = seq 0 (S k)) by (rewrite (set_new k [] (reps s) G0), map_app, K, seq_S; reflexivity).
  destruct (get k (future s)) as [l|] eqn:F.
  - destruct (dispatch_all_spec l (Node (set k [] (reps s)) (set k [] (future s)) (required s)) k []) as (r & -> & R2 & R3).
    + cbn [reps]. rewrite get_set, Nat.eqb_refl. reflexivity.
    + intros m I. apply D. unfold waiting, get_or. rewrite F. exact I.
    + cbn [reps future required] in *. split; cbn [reps future required].
      * exact R.
      * rewrite R2. exact K'.
      * intros i I. rewrite R3. rewrite get_set. destruct (Nat.eqb_spec i k) as [->|N].
        -- cbn [app]. rewrite <- (L k (le_n k)). unfold waiting, get_or. rewrite F. reflexivity.
        -- apply Th. lia.
      * intros i I. unfold waiting, get_or. cbn [future]. rewrite get_set. destruct (Nat.eqb_spec i k) as [->|N]; [lia|]. apply (L i). lia.
      * intros i m. unfold waiting, get_or. cbn [future]. rewrite get_set. destruct (Nat.eqb_spec i k) as [->|N]; [intros []|]. apply (D i m).
  - split; cbn [reps future required].
    + exact R.
    + exact K'.
    + intros i I. rewrite get_set. destruct (Nat.eqb_spec i k) as [->|N]; [|apply Th; lia].
      rewrite <- (L k (le_n k)). unfold waiting, get_or. rewrite F. reflexivity.
    + intros i I. unfold waiting, get_or. cbn [future]. apply (L i). lia.
    + exact D.
Qed.
Lemma grow_all d : forall k n T s, inv k n T s -> inv (k + d) n T (fold_left grow (seq k d) s).
Proof.
  induction d as [|d IH]; intros k n T s H; cbn [seq fold_left]; [rewrite Nat.add_0_r; exact H|].
  replace (k + S d) with (S k + d) by lia. apply IH. apply grow_inv. exact H.
Qed.
Lemma remove_all_eq l : forall s, fold_left (fun s i => remove_replica i s) l s = Node (fold_left (fun d i => del i d) l (reps s)) (future s) (required s).
Proof. induction l as [|i l IH]; intros s; cbn [fold_left]; [destruct s; reflexivity|]. rewrite IH. reflexivity. Qed.
Lemma del_all_get {V} l : forall (d : dict V) j, get j (fold_left (fun d i => del i d) l d) = if existsb (Nat.eqb j) l then None else get j d.
Proof.
  induction l as [|i l IH]; intros d j; cbn; [reflexivity|]. rewrite IH, get_del. destruct (j =? i); cbn; destruct (existsb (Nat.eqb j) l); reflexivity.
Qed.
Lemma del_keys {V} i (d : dict V) : map fst (del i d) = filter (fun x => negb (x =? i)) (map fst d).
Proof. unfold del. induction d as [|(k, v) d IH]; cbn; [reflexivity|]. destruct (k =? i); cbn; rewrite IH; reflexivity. Qed.
Lemma filter_low (l : list nat) i : (forall x, In x l -> x < i) -> filter (fun x => negb (x =? i)) l = l.
Proof.
  induction l as [|a l IH]; intros H; cbn; [reflexivity|]. destruct (Nat.eqb_spec a i) as [->|]; cbn.
  - exfalso. pose proof (H i (or_introl eq_refl)). lia.
  - rewrite IH; [reflexivity|]. intros x I. apply H. right. exact I.
Qed.
Lemma del_all_keys {V} c : forall r (d : dict V), map fst d = seq 0 (r + c) -> map fst (fold_left (fun d i => del i d) (rev (seq r c)) d) = seq 0 r.
Proof.
  induction c as [|c IH]; intros r d E; [rewrite Nat.add_0_r in E; exact E|].
  rewrite seq_S, rev_app_distr. cbn [rev app fold_left]. apply IH.
  rewrite del_keys, E, Nat.add_succ_r, seq_S, filter_app. cbn [filter Nat.add]. rewrite Nat.eqb_refl. cbn [negb]. rewrite app_nil_r.
  apply filter_low. intros x I. apply in_seq in I. lia.
Qed.

Lemma pool_inv n T s r : inv n n T s -> clean n s ->
  inv r r (fun i => if (i <? n) && (r <=? i) then [] else T i) (set_pool r s) /\ clean r (set_pool r s).
Proof.
  intros I C. pose proof I as [R K Th L D].
  assert (Len : length (reps s) = n) by (rewrite <- (map_length fst), K, seq_length; reflexivity).
  unfold set_pool, adjust. rewrite Len.
  assert (I1 : inv n r T (Node (reps s) (future s) r)) by (split; [reflexivity|exact K|exact Th|exact L|exact D]).
  pose proof (grow_all (r - n) n r T _ I1) as I2. set (s2 := fold_left grow _ _) in *.
  rewrite remove_all_eq. cbn [reps future required].
  destruct (le_lt_dec n r) as [Le|Lt].
  - replace (n - r) with 0 by lia. replace (n + (r - n)) with r in I2 by lia. destruct I2 as [R2 K2 Th2 L2 D2]. cbn [seq rev fold_left].
    split; [|intros i Hi; cbn [future]; rewrite (get_filter (fun x => r <=? x)); destruct (Nat.leb_spec r i); [lia|reflexivity]].
    split; cbn [reps future required].
    + exact R2.
    + exact K2.
    + intros i Hi. rewrite (Th2 i Hi). destruct (Nat.leb_spec r i); [lia|]. rewrite andb_false_r. reflexivity.
    + intros i Hi. unfold waiting, get_or. cbn [future]. rewrite (get_filter (fun x => r <=? x)).
      destruct (Nat.leb_spec r i); [|lia]. destruct (Nat.ltb_spec i n); [lia|]. cbn [andb]. apply (L2 i Hi).
    + intros i m. unfold waiting, get_or. cbn [future]. rewrite (get_filter (fun x => r <=? x)). destruct (r <=? i); [apply (D2 i m)|intros []].
  - assert (E2 : s2 = Node (reps s) (future s) r) by (unfold s2; replace (r - n) with 0 by lia; reflexivity). rewrite E2. cbn [reps future required].
    split; [|intros i Hi; cbn [future]; rewrite (get_filter (fun x => r <=? x)); destruct (Nat.leb_spec r i); [lia|reflexivity]].
    split; cbn [reps future required].
    + reflexivity.
    + apply del_all_keys. replace (r + (n - r)) with n by lia. exact K.
    + intros i Hi. rewrite del_all_get. destruct (existsb (Nat.eqb i) (rev (seq r (n - r)))) eqn:Ex.
      * apply mem_in in Ex. apply in_rev in Ex. apply in_seq in Ex. lia.
      * destruct (Nat.leb_spec r i); [lia|]. rewrite andb_false_r. apply Th. lia.
    + intros i Hi. unfold waiting, get_or. cbn [future]. rewrite (get_filter (fun x => r <=? x)).
      destruct (Nat.leb_spec r i); [|lia]. destruct (Nat.ltb_spec i n) as [Q|Q]; cbn [andb]; [rewrite (C i Q); reflexivity|]. apply (L i Q).
    + intros i m. unfold waiting, get_or. cbn [future]. rewrite (get_filter (fun x => r <=? x)). destruct (r <=? i); [apply (D i m)|intros []].
Qed.

Lemma meant_dest m i : meant_for i m = match dest m with Some j => i =? j | None => true end.
Proof. unfold meant_for, dest. destruct (m_kind m), (m_inst m); reflexivity. Qed.

Lemma recv_inv n T s m : inv n n T s -> clean n s -> well_formed m ->
  inv n n (fun i => if meant_for i m && ((i <? n) || kept m) then T i ++ [m] else T i) (send_to m s) /\ clean n (send_to m s).
Proof.
  intros I C W. destruct I as [R K Th L D]. unfold send_to. fold (dest m). destruct (dest m) as [j|] eqn:E.
  - destruct (get j (reps s)) as [l|] eqn:G.
    + unfold pass_one. rewrite G. split; [|exact C].
      assert (Hj : j < n) by (destruct (le_lt_dec n j) as [Q|Q]; [|exact Q]; apply (get_seq n _ j K) in Q; congruence).
      assert (El : l = T j) by (pose proof (Th j Hj); congruence).
      split; cbn [reps future required].
      * exact R.
      * rewrite set_old_keys; [exact K|congruence].
      * intros i Hi. rewrite get_set, meant_dest, E. destruct (Nat.eqb_spec i j) as [->|N]; cbn [andb].
        -- destruct (Nat.ltb_spec j n); [|lia]. cbn [orb]. rewrite El. reflexivity.
        -- apply Th. exact Hi.
      * intros i Hi. rewrite meant_dest, E. destruct (Nat.eqb_spec i j) as [->|N]; [lia|]. cbn [andb]. apply (L i Hi).
      * exact D.
    + assert (Hj : n <= j) by (apply (get_seq n _ j K); exact G). unfold stash. rewrite R. destruct (Nat.leb_spec n j); [|lia].
      split; [|intros i Hi; cbn [future]; rewrite get_set; destruct (Nat.eqb_spec i j); [lia|apply C; exact Hi]].
      split; cbn [reps future required].
      * reflexivity.
      * exact K.
      * intros i Hi. rewrite meant_dest, E. destruct (Nat.eqb_spec i j) as [->|N]; [lia|]. cbn [andb]. apply Th. exact Hi.
      * intros i Hi. unfold waiting, get_or. cbn [future]. rewrite get_set, meant_dest, E. destruct (Nat.eqb_spec i j) as [->|N]; cbn [andb].
        -- destruct (Nat.ltb_spec j n); [lia|]. cbn [orb]. rewrite filter_app. cbn [filter]. pose proof (L j Hj) as Lj. unfold waiting, get_or in Lj.
           rewrite Lj. destruct (kept m); [reflexivity|rewrite app_nil_r; reflexivity].
        -- apply (L i Hi).
      * intros i m'. unfold waiting, get_or. cbn [future]. rewrite get_set. destruct (Nat.eqb_spec i j) as [->|N]; [|apply (D i m')].
        intros I Km. apply in_app_iff in I as [I|[<-|[]]]; [apply (D j m'); assumption|exact E].
  - assert (Km : kept m = false).
    { unfold dest, kept, well_formed in *. destruct (m_kind m); [|discriminate|reflexivity]. exfalso. apply W; [reflexivity|exact E]. }
    unfold pass_all. split; [|exact C]. split; cbn [reps future required].
    + exact R.
    + rewrite map_map. cbn [fst]. exact K.
    + intros i Hi. rewrite get_map_all, (Th i Hi), meant_dest, E. cbn [option_map andb]. destruct (Nat.ltb_spec i n); [reflexivity|lia].
    + intros i Hi. rewrite meant_dest, E, Km. destruct (Nat.ltb_spec i n); [lia|]. cbn. apply (L i Hi).
    + exact D.
Qed.

Lemma run_inv os : forall n T s, Forall fine os -> inv n n T s -> clean n s ->
  inv (instances n os) (instances n os) (fun i => told i n (T i) os) (run s os).
Proof.
  induction os as [|o os IH]; intros n T s F I C; [exact I|]. inversion F as [|? ? F1 F2]; subst. unfold run. cbn [fold_left].
  destruct o as [m|r|i|]; cbn [fine] in F1; try contradiction; cbn [step instances told].
  - destruct (recv_inv n T s m I C F1) as [I1 C1]. apply (IH n _ _ F2 I1 C1).
  - destruct (pool_inv n T s r I C) as [I1 C1]. apply (IH r _ _ F2 I1 C1).
Qed.
Lemma init_inv : inv 0 0 (fun _ => []) init /\ clean 0 init.
Proof. split; [|intros i H; lia]. split; try reflexivity; try (intros; lia). intros i m []. Qed.

Lemma handed_told os i : Forall fine os -> handed i (run init os) = if i <? instances 0 os then Some (told i 0 [] os) else None.
Proof.
  intros F. destruct (run_inv os 0 (fun _ => []) init F (proj1 init_inv) (proj2 init_inv)) as [R K Th L D]. unfold handed.
  destruct (Nat.ltb_spec i (instances 0 os)) as [H|H]; [apply Th; exact H|]. apply (get_seq _ _ i K). exact H.
Qed.
Lemma waiting_told os i : Forall fine os -> instances 0 os <= i -> filter kept (waiting i (run init os)) = told i 0 [] os.
Proof. intros F H. destruct (run_inv os 0 (fun _ => []) init F (proj1 init_inv) (proj2 init_inv)) as [R K Th L D]. apply L. exact H. Qed.

(** *** a message is never handed over twice, and none is missed *)
Lemma told_app i os1 : forall n sofar os2, told i n sofar (os1 ++ os2) = told i (instances n os1) (told i n sofar os1) os2.
Proof. induction os1 as [|o os1 IH]; intros n sofar os2; [reflexivity|]. destruct o; cbn [app told instances]; apply IH. Qed.
Lemma instances_app os1 : forall n os2, instances n (os1 ++ os2) = instances (instances n os1) os2.
Proof. induction os1 as [|o os1 IH]; intros n os2; [reflexivity|]. destruct o; cbn [app instances]; apply IH. Qed.

Lemma told_extends i os : forall n sofar,
  (forall b1 r b2, os = b1 ++ Pool r :: b2 -> instances n b1 <= i \/ i < r) -> exists y, told i n sofar os = sofar ++ y.
Proof.
  induction os as [|o os IH]; intros n sofar H; [exists []; symmetry; apply app_nil_r|].
  assert (H' : forall n', (forall b1, instances n (o :: b1) = instances n' b1) -> forall b1 r b2, os = b1 ++ Pool r :: b2 -> instances n' b1 <= i \/ i < r).
  { intros n' E b1 r b2 ->. rewrite <- E. apply (H (o :: b1) r b2). reflexivity. }
  destruct o as [m|r|j|]; cbn [told].
  - destruct (meant_for i m && ((i <? n) || kept m)).
    + destruct (IH n (sofar ++ [m]) (H' n (fun _ => eq_refl))) as (y & ->). exists (m :: y). rewrite <- app_assoc. reflexivity.
    + apply (IH n sofar (H' n (fun _ => eq_refl))).
  - destruct (H [] r os eq_refl) as [Q|Q]; cbn [instances] in Q.
    + destruct (Nat.ltb_spec i n); [lia|]. cbn [andb]. apply (IH r sofar (H' r (fun _ => eq_refl))).
    + destruct (Nat.leb_spec r i); [lia|]. rewrite andb_false_r. apply (IH r sofar (H' r (fun _ => eq_refl))).
  - apply (IH n sofar (H' n (fun _ => eq_refl))).
  - apply (IH n sofar (H' n (fun _ => eq_refl))).
Qed.

(** *** what is not kept is lost *)
Definition alike (s t : node) : Prop := reps s = reps t /\ required s = required t /\ forall i, filter kept (waiting i s) = filter kept (waiting i t).
Lemma alike_send m s t : alike s t -> alike (send_to m s) (send_to m t).
Proof.
  intros (A & B & C). unfold send_to. destruct (match m_kind m with Change => Some 0 | _ => m_inst m end) as [i|].
  - rewrite <- A. destruct (get i (reps s)) as [l|] eqn:G.
    + unfold pass_one. rewrite <- A, G. split; [cbn [reps]; reflexivity|]. split; [exact B|exact C].
    + unfold stash. rewrite <- B. destruct (required s <=? i); [|split; [exact A|split; [exact B|exact C]]].
      split; [exact A|]. split; [reflexivity|]. intros j. unfold waiting, get_or. cbn [future]. rewrite !get_set. destruct (j =? i); [|apply C].
      rewrite !filter_app. f_equal. apply C.
  - unfold pass_all. rewrite <- A, <- B. split; [reflexivity|]. split; [reflexivity|exact C].
Qed.
Lemma alike_dispatch l1 : forall l2 s t, filter kept l1 = filter kept l2 -> alike s t -> alike (dispatch_all l1 s) (dispatch_all l2 t).
Proof.
  assert (N : forall m s, kept m = false -> dispatch m s = s) by (intros m s K; unfold dispatch, kept in *; destruct (m_kind m); try discriminate; reflexivity).
  assert (Y : forall m s, kept m = true -> dispatch m s = send_to m s) by (intros m s K; unfold dispatch, kept in *; destruct (m_kind m); try discriminate; reflexivity).
  assert (Fl : forall l s, dispatch_all l s = dispatch_all (filter kept l) s).
  { induction l as [|m l IH]; intros s; cbn [dispatch_all filter]; [reflexivity|]. destruct (kept m) eqn:K; cbn [dispatch_all]; [apply IH|]. rewrite (N m s K). apply IH. }
  assert (Q : forall l s t, alike s t -> alike (dispatch_all l s) (dispatch_all l t)).
  { induction l as [|m l IH]; intros s t A; cbn [dispatch_all]; [exact A|]. apply IH. destruct (kept m) eqn:K; [rewrite !(Y m _ K); apply alike_send; exact A|rewrite !(N m _ K); exact A]. }
  intros l2 s t E A. rewrite (Fl l1), (Fl l2), E. apply Q. exact A.
Qed.
Lemma process_as i s : alike (process_stashed i s) (dispatch_all (waiting i s) (Node (reps s) (set i [] (future s)) (required s))).
Proof.
  unfold process_stashed, waiting, get_or. destruct (get i (future s)) as [l|] eqn:G; [split; [reflexivity|split; reflexivity]|].
  cbn [dispatch_all]. split; [reflexivity|]. split; [reflexivity|]. intros j. unfold waiting, get_or. cbn [future]. rewrite get_set.
  destruct (Nat.eqb_spec j i) as [->|]; [rewrite G; reflexivity|reflexivity].
Qed.
Lemma alike_trans s t u : alike s t -> alike t u -> alike s u.
Proof. intros (A & B & C) (A' & B' & C'). split; [congruence|]. split; [congruence|]. intros i. rewrite C. apply C'. Qed.
Lemma alike_sym s t : alike s t -> alike t s.
Proof. intros (A & B & C). split; [congruence|]. split; [congruence|]. intros i. symmetry. apply C. Qed.
Lemma alike_grow i s t : alike s t -> alike (grow s i) (grow t i).
Proof.
  intros (A & B & C). unfold grow. apply (alike_trans _ _ _ (process_as i _)). apply alike_sym. apply (alike_trans _ _ _ (process_as i _)). apply alike_sym.
  apply alike_dispatch; [apply C|]. unfold add_replica. cbn [reps future required]. split; [cbn [reps]; rewrite A; reflexivity|]. split; [exact B|].
  intros j. unfold waiting, get_or. cbn [future]. rewrite !get_set. destruct (j =? i); [reflexivity|apply C].
Qed.
Lemma alike_step o s t : alike s t -> alike (step s o) (step t o).
Proof.
  intros A. destruct o as [m|r|i|]; cbn [step].
  - apply alike_send. exact A.
  - pose proof A as (E & B & C). unfold set_pool, adjust. rewrite !remove_all_eq. rewrite <- E.
    assert (G : forall l u v, alike u v -> alike (fold_left grow l u) (fold_left grow l v)).
    { induction l as [|x l IH]; intros u v H; cbn [fold_left]; [exact H|]. apply IH. apply alike_grow. exact H. }
    assert (A1 : alike (Node (reps s) (future s) r) (Node (reps s) (future t) r)) by (split; [reflexivity|]; split; [reflexivity|exact C]).
    pose proof (G (seq (length (reps s)) (r - length (reps s))) _ _ A1) as (E2 & B2 & C2).
    split; [cbn [reps]; rewrite E2; reflexivity|]. split; [exact B2|]. intros j. unfold waiting, get_or. cbn [future].
    rewrite !(get_filter (fun x => r <=? x)). destruct (r <=? j); [apply C2|reflexivity].
  - destruct A as (E & B & C). unfold remove_replica. split; [cbn [reps]; rewrite E; reflexivity|]. split; [exact B|exact C].
  - unfold restore. rewrite <- (proj1 (proj2 A)). generalize (seq 0 (required s)). intros l. revert s t A. induction l as [|x l IH]; intros s t A; cbn [fold_left]; [exact A|].
    apply IH. destruct A as (E & B & C). rewrite <- E. destruct (get x (reps s)); [split; [exact E|split; [exact B|exact C]]|].
    unfold add_replica. split; [cbn [reps]; rewrite E; reflexivity|]. split; [exact B|exact C].
Qed.
Lemma alike_run os : forall s t, alike s t -> alike (run s os) (run t os).
Proof. induction os as [|o os IH]; intros s t A; [exact A|]. unfold run. cbn [fold_left]. apply IH. apply alike_step. exact A. Qed.
Lemma other_lost s m i : m_kind m = Other -> m_inst m = Some i -> get i (reps s) = None -> alike (step s (Recv m)) s.
Proof.
  intros K I G. cbn [step]. unfold send_to. rewrite K, I, G. unfold stash. destruct (required s <=? i); [|split; [reflexivity|split; reflexivity]].
  split; [reflexivity|]. split; [reflexivity|]. intros j. unfold waiting, get_or. cbn [future]. rewrite get_set. destruct (Nat.eqb_spec j i) as [->|]; [|reflexivity].
  rewrite filter_app. cbn [filter]. unfold kept at 2. rewrite K. apply app_nil_r.
Qed.
Lemma dropped s m i : m_kind m <> Change -> m_inst m = Some i -> get i (reps s) = None -> i < required s -> step s (Recv m) = s.
Proof.
  intros K I G H. cbn [step]. unfold send_to. replace (match m_kind m with Change => Some 0 | _ => m_inst m end) with (Some i) by (rewrite I; destruct (m_kind m); congruence).
  rewrite G. unfold stash. destruct (Nat.leb_spec (required s) i); [lia|reflexivity].
Qed.
Lemma restore_handed l : forall s i, get i (reps s) = None -> In i l ->
  get i (reps (fold_left (fun s i => match get i (reps s) with None => add_replica i s | Some _ => s end) l s)) = Some [].
Proof.
  assert (P : forall l1 s i, get i (reps s) = Some [] -> get i (reps (fold_left (fun s i => match get i (reps s) with None => add_replica i s | Some _ => s end) l1 s)) = Some []).
  { induction l1 as [|x l0 IH]; intros s i G; cbn [fold_left]; [exact G|]. apply IH. destruct (get x (reps s)) eqn:Gx; [exact G|]. unfold add_replica. cbn [reps]. rewrite get_set.
    destruct (i =? x); [reflexivity|exact G]. }
  induction l as [|x l IH]; intros s i G I; [destruct I|]. cbn [fold_left]. destruct (Nat.eq_dec x i) as [->|N].
  - apply P. rewrite G. unfold add_replica. cbn [reps]. rewrite get_set, Nat.eqb_refl. reflexivity.
  - destruct I as [I|I]; [congruence|]. apply IH; [|exact I]. destruct (get x (reps s)) eqn:Gx; [exact G|]. unfold add_replica. cbn [reps]. rewrite get_set.
    destruct (Nat.eqb_spec i x); [congruence|exact G].
Qed.
Lemma holds_all k : forall s m i, m_kind m <> Change -> m_inst m = Some i -> get i (reps s) = None -> required s <= i ->
  waiting i (run s (repeat (Recv m) k)) = waiting i s ++ repeat m k.
Proof.
  induction k as [|k IH]; intros s m i K I G H; cbn [repeat]; [symmetry; apply app_nil_r|]. unfold run. cbn [fold_left]. fold (run (step s (Recv m)) (repeat (Recv m) k)).
  assert (E : step s (Recv m) = Node (reps s) (set i (waiting i s ++ [m]) (future s)) (required s)).
  { cbn [step]. unfold send_to. replace (match m_kind m with Change => Some 0 | _ => m_inst m end) with (Some i) by (rewrite I; destruct (m_kind m); congruence).
    rewrite G. unfold stash. destruct (Nat.leb_spec (required s) i); [reflexivity|lia]. }
  rewrite E, IH; cbn [reps required]; try assumption. unfold waiting, get_or. cbn [future]. rewrite get_set, Nat.eqb_refl, <- app_assoc. reflexivity.
Qed.
