(** C88: what is recorded is played back. *)
From Coq Require Import List Arith ZArith Bool Lia.
From Verif Require Import Recorder_Model Recorder_Spec Recorder_Proofs.
Import ListNotations.

(** *** a serializer to show that the hypotheses can be met *)
Definition w_num (n : nat) : bytes := repeat 1 n ++ [0].
Definition w_list (l : list nat) : bytes := w_num (length l) ++ flat_map w_num l.
Definition w_val (v : val) : bytes :=
  match v with Incoming m f => 2 :: w_num m ++ w_num f | Outgoing m to => 3 :: w_num m ++ w_list to | Disconn ns => 4 :: w_list ns end.
Definition w (l : list val) : bytes := 9 :: flat_map w_val l.
Fixpoint r_num (b : bytes) : option (nat * bytes) :=
  match b with 1 :: r => match r_num r with Some (n, r') => Some (S n, r') | None => None end | 0 :: r => Some (0, r) | _ => None end.
Fixpoint r_nums (n : nat) (b : bytes) : option (list nat * bytes) :=
  match n with 0 => Some ([], b) | S n => match r_num b with Some (x, r) => match r_nums n r with Some (l, r') => Some (x :: l, r') | None => None end | None => None end end.
Definition r_list (b : bytes) : option (list nat * bytes) := match r_num b with Some (n, r) => r_nums n r | None => None end.
Fixpoint r_vals (fuel : nat) (b : bytes) : option (list val) :=
  match fuel, b with
  | _, [] => Some []
  | 0, _ => None
  | S fuel, x :: b =>
      let go v r := match r_vals fuel r with Some l => Some (v :: l) | None => None end in
      if x =? 4 then match r_list b with Some (ns, r) => go (Disconn ns) r | None => None end
      else match r_num b with
           | Some (m, r) => if x =? 2 then match r_num r with Some (f, r) => go (Incoming m f) r | None => None end
                            else match r_list r with Some (to, r) => go (Outgoing m to) r | None => None end
           | None => None
           end
  end.
Definition r (b : bytes) : option (list val) := match b with _ :: b => r_vals (length b) b | [] => None end.
Lemma r_num_ok n z : r_num (w_num n ++ z) = Some (n, z).
Proof. unfold w_num. induction n as [|n IH]; [reflexivity|]. cbn [repeat app r_num]. rewrite IH. reflexivity. Qed.
Lemma r_nums_ok l z : r_nums (length l) (flat_map w_num l ++ z) = Some (l, z).
Proof. induction l as [|x l IH]; [reflexivity|]. cbn [length flat_map r_nums]. rewrite <- app_assoc, r_num_ok, IH. reflexivity. Qed.
Lemma r_list_ok l z : r_list (w_list l ++ z) = Some (l, z).
Proof. unfold r_list, w_list. rewrite <- app_assoc, r_num_ok. apply r_nums_ok. Qed.
Lemma r_vals_ok l : forall fuel, length (flat_map w_val l) <= fuel -> r_vals fuel (flat_map w_val l) = Some l.
Proof.
  induction l as [|v l IH]; intros fuel H; [destruct fuel; reflexivity|]. cbn [flat_map] in *. rewrite app_length in H.
  destruct fuel as [|fuel]; [destruct v; cbn [w_val length] in H; lia|].
  destruct v as [m f|m to|ns]; cbn [w_val length app] in *; cbn [r_vals Nat.eqb].
  - rewrite <- app_assoc, !r_num_ok, IH by lia. reflexivity.
  - rewrite <- app_assoc, r_num_ok, r_list_ok, IH by lia. reflexivity.
  - rewrite r_list_ok, IH by lia. reflexivity.
Qed.
Lemma w_num_small n x : In x (w_num n) -> x < 128.
Proof. unfold w_num. intros I. apply in_app_iff in I as [I|[<-|[]]]; [apply repeat_spec in I; lia|lia]. Qed.
Lemma w_list_small l x : In x (w_list l) -> x < 128.
Proof. unfold w_list. intros I. apply in_app_iff in I as [I|I]; [apply (w_num_small _ _ I)|]. apply in_flat_map in I as (y & _ & I). apply (w_num_small _ _ I). Qed.
Example toy_json : json_ok w r.
Proof.
  repeat split.
  - intros l. unfold r, w. apply r_vals_ok. lia.
  - discriminate.
  - intros l x [<-|I]; [lia|]. apply in_flat_map in I as (v & _ & I). destruct v as [m f|m to|ns]; cbn [w_val] in I; destruct I as [<-|I]; try lia.
    + apply in_app_iff in I as [I|I]; apply (w_num_small _ _ I).
    + apply in_app_iff in I as [I|I]; [apply (w_num_small _ _ I)|apply (w_list_small _ _ I)].
    + apply (w_list_small _ _ I).
Qed.
Definition nevs := [(3, Incoming 1 7); (3, Outgoing 2 [7; 8]); (5, Incoming 4 8); (9, Disconn [7])].
Definition cevs := [(4, Incoming 11 20); (5, Incoming 12 21)].

(** ** Recording.  Recording never fails, whatever the clock does; the store then holds, for every time, the events of that
    time in the order in which they came, and nothing else. *)
Theorem C88_recorded : forall dumps loads evs, json_ok dumps loads ->
  exists s, record dumps loads [] evs = Some s /\ increasing s /\
    forall k, match get k s with Some b => loads b = Some (at_time k evs) /\ at_time k evs <> [] | None => at_time k evs = [] end.
Proof.
  intros dumps loads evs J. destruct (record_holds dumps loads J evs) as (s & E & I & H). exists s. split; [exact E|]. split; [exact I|].
  intros k. rewrite H. destruct (at_time k evs) as [|a l]; [reflexivity|]. split; [apply J|discriminate].
Qed.
Example C88_recorded_example : option_map (map (fun e => (fst e, r (snd e)))) (record w r [] nevs) =
  Some [(3, Some [Incoming 1 7; Outgoing 2 [7; 8]]); (5, Some [Incoming 4 8]); (9, Some [Disconn [7]])].
Proof. reflexivity. Qed.
(** If the clock does not go back, reading the store in the order of its keys gives all events in the order in which they came. *)
Theorem C88_order : forall dumps loads evs s, json_ok dumps loads -> in_order evs -> record dumps loads [] evs = Some s ->
  flat_map (fun e => match loads (snd e) with Some l => l | None => [] end) s = map snd evs.
Proof.
  intros dumps loads evs s J O E. destruct (record_holds dumps loads J evs) as (s' & E' & H). rewrite E in E'. injection E' as <-.
  assert (K : forall x, In x evs -> In (fst x) (map fst s)) by (intros x X; apply (holds_keys dumps s evs _ H), in_map, X).
  destruct H as (I & H).
  transitivity (flat_map (fun k => flat_map (fun v => [v]) (at_time k evs)) (map fst s)).
  - assert (Q : forall s0, (forall e, In e s0 -> In e s) -> flat_map (fun e => match loads (snd e) with Some l => l | None => [] end) s0 =
       flat_map (fun k => flat_map (fun v => [v]) (at_time k evs)) (map fst s0)).
    { induction s0 as [|(k, b) s0 IH]; intros S0; [reflexivity|]. cbn [flat_map map fst snd]. rewrite IH by (intros x X; apply S0; right; exact X). f_equal.
      specialize (H k). rewrite (get_in_increasing k b s I (S0 _ (or_introl eq_refl))) in H.
      destruct (at_time k evs) as [|a l] eqn:F; [discriminate|]. injection H as ->. destruct J as (J1 & _). rewrite J1.
      clear. generalize (a :: l). intros m. induction m as [|y m IH]; [reflexivity|]. cbn [flat_map app]. rewrite <- IH. reflexivity. }
    apply Q. auto.
  - rewrite walk; [|apply increasing_inc, I|exact O|exact K]. clear. induction evs as [|e evs IH]; [reflexivity|]. cbn [flat_map map app]. rewrite IH. reflexivity.
Qed.
Example C88_order_example : in_order nevs /\ in_order cevs.
Proof. simpl. repeat split; intros e H; repeat destruct H as [<-|H]; simpl; lia || destruct H. Qed.
(** Refuted: the clock counts from the last boot of the machine.  When it starts again, later events come before earlier ones. *)
Theorem C88_boot_refuted : forall dumps loads k k' v v', json_ok dumps loads -> k' < k ->
  exists s, record dumps loads [] [(k, v); (k', v')] = Some s /\
    flat_map (fun e => match loads (snd e) with Some l => l | None => [] end) s = [v'; v].
Proof.
  intros dumps loads k k' v v' (J1 & _) L. cbn [record]. unfold add_to_store. cbn [get put]. destruct (Nat.eqb_spec k' k); [lia|].
  destruct (Nat.ltb_spec k' k); [|lia]. eexists. split; [reflexivity|]. cbn [flat_map snd]. rewrite !J1. reflexivity.
Qed.

(** ** Playing.  Whenever [get_next] is called, what it has returned so far is the first part of what was recorded, in order,
    each entry once; when it stops, that is everything. *)
Theorem C88_played : forall P (parse : bytes -> option P) s nows p out, (forall e, In e s -> parse (snd e) <> None) ->
  play parse (start_playing s) nows = (p, out) ->
  (forall t, ~ In (t, Raised) out) /\
  (exists more, map (fun e => (fst e, Some (snd e))) (delivered out ++ more) = map (fun e => (fst e, parse (snd e))) s /\
     (playing p = false -> more = [])).
Proof.
  intros P parse s nows p out T E.
  destruct (play_ok parse nows (start_playing s) p out) as ((_ & W) & A & _ & C & _); [split; [intros Q; destruct Q; reflexivity|discriminate]|exact T|exact E|].
  split; [exact C|]. exists (parsed parse (left p)). rewrite <- A. split.
  - clear - T. unfold left. cbn [held rest start_playing app]. unfold parsed. induction s as [|e s IH]; [reflexivity|]. cbn [flat_map map].
    rewrite <- IH by (intros e' I; apply T; right; exact I). specialize (T e (or_introl eq_refl)). destruct (parse (snd e)) as [v|]; [reflexivity|congruence].
  - intros Q. rewrite (W Q). reflexivity.
Qed.
Definition recorded := match record w r [] nevs with Some s => s | None => [] end.
Example C88_played_example : (forall e, In e recorded -> r (snd e) <> None) /\
  let (p, out) := play r (start_playing recorded) [100; 101; 102; 105; 106; 107]%Z in
  playing p = false /\ map fst (delivered out) = [3; 5; 9] /\
  out = [(100%Z, Got 3 [Incoming 1 7; Outgoing 2 [7; 8]]); (101%Z, Nothing); (102%Z, Got 5 [Incoming 4 8]); (105%Z, Nothing);
         (106%Z, Got 9 [Disconn [7]]); (107%Z, Nothing)].
Proof. split; [intros e H; vm_compute in H; repeat destruct H as [<-|H]; try discriminate; destruct H|]. vm_compute. repeat split. Qed.
(** No entry comes sooner after an earlier one than it was recorded after it *)
Theorem C88_spaced : forall P (parse : bytes -> option P) s nows p out o1 t1 k1 v1 o2 t2 k2 v2 o3,
  (forall e, In e s -> parse (snd e) <> None) -> play parse (start_playing s) nows = (p, out) ->
  out = o1 ++ (t1, Got k1 v1) :: o2 ++ (t2, Got k2 v2) :: o3 -> (Z.of_nat k2 - Z.of_nat k1 <= t2 - t1)%Z.
Proof.
  intros P parse s nows p out o1 t1 k1 v1 o2 t2 k2 v2 o3 T E F.
  apply (play_spaced parse nows (start_playing s) p out) with (o1 := o1) (o2 := o2) (o3 := o3) (v1 := v1) (v2 := v2); auto.
  split; [intros Q; destruct Q; reflexivity|discriminate].
Qed.
(** and once the time has come, the next call returns the next entry: the first call returns the first entry, and a call at
    [t] returns the next one if that is recorded no later than [t] after the last *)
Theorem C88_prompt : forall P (parse : bytes -> option P) s nows p out t,
  (forall e, In e s -> parse (snd e) <> None) -> play parse (start_playing s) nows = (p, out) ->
  match left p with
  | [] => get_next parse p t = (Player [] None (last p) false, Nothing)
  | (k, b) :: _ => match last p with
                   | None => True
                   | Some (t0, k0) => (Z.of_nat k - Z.of_nat k0 <= t - t0)%Z
                   end -> exists v, parse b = Some v /\ snd (get_next parse p t) = Got k v
  end.
Proof.
  intros P parse s nows p out t T E.
  destruct (play_ok parse nows (start_playing s) p out) as ((W1 & _) & _ & B & _ & _); [split; [intros Q; destruct Q; reflexivity|discriminate]|exact T|exact E|].
  change (left (start_playing s)) with s in B.
  assert (T' : forall e, In e (left p) -> parse (snd e) <> None) by auto. clear - T' W1. unfold left, get_next in *. destruct p as [rs hd la pl]. cbn [held rest last] in *.
  destruct hd as [(k, b)|]; cbn [app] in *.
  - destruct la as [(t0, k0)|]; [|destruct W1; [discriminate|reflexivity]]. intros L. unfold enough. cbn [fst snd]. rewrite (proj2 (Z.leb_le _ _) L).
    specialize (T' _ (or_introl eq_refl)). cbn [snd] in T'. unfold deliver. destruct (parse b) as [v|]; [exists v; auto|congruence].
  - destruct rs as [|(k, b) rs]; [reflexivity|]. specialize (T' _ (or_introl eq_refl)). cbn [snd] in T'.
    destruct la as [(t0, k0)|]; intros L; [unfold enough; cbn [fst snd]; rewrite (proj2 (Z.leb_le _ _) L)|]; unfold deliver; (destruct (parse b) as [v|]; [exists v; auto|congruence]).
Qed.
Example C88_prompt_example : let p := fst (play r (start_playing recorded) [100; 101]%Z) in
  map fst (left p) = [5; 9] /\ last p = Some (100%Z, 3).
Proof. vm_compute. split; reflexivity. Qed.

(** ** Both stacks.  Recordings of the node's and the client's stack, combined in an empty store: every entry can be read and
    holds what both have at its time. *)
Theorem C88_combined : forall dumps loads ne ce n c, json_ok dumps loads ->
  record dumps loads [] ne = Some n -> record dumps loads [] ce = Some c ->
  increasing (combine [] n c) /\
  (forall k, In k (map fst (combine [] n c)) <-> In k (map fst ne) \/ In k (map fst ce)) /\
  forall e, In e (combine [] n c) -> get_parsed_both loads (snd e) = Some (at_time (fst e) ne, at_time (fst e) ce).
Proof.
  intros dumps loads ne ce n c J N C.
  destruct (record_holds dumps loads J ne) as (n' & N' & HN). rewrite N in N'. injection N' as <-.
  destruct (record_holds dumps loads J ce) as (c' & C' & HC). rewrite C in C'. injection C' as <-.
  split; [apply (combine_get dumps n c ne ce 0 HN HC)|]. split; [intros k; apply (combine_keys dumps n c ne ce k HN HC)|].
  intros e I. apply (combine_parsed dumps loads J n c ne ce e HN HC I).
Qed.
Definition recorded_c := match record w r [] cevs with Some s => s | None => [] end.
Example C88_combined_example : map (fun e => (fst e, get_parsed_both r (snd e))) (combine [] recorded recorded_c) =
  [(3, Some ([Incoming 1 7; Outgoing 2 [7; 8]], [])); (4, Some ([], [Incoming 11 20])); (5, Some ([Incoming 4 8], [Incoming 12 21])); (9, Some ([Disconn [7]], []))].
Proof. vm_compute. reflexivity. Qed.

(** From end to end: when the playing is over, the node that replays has been given all messages and losses of connections
    that the node's stack recorded, and all messages that the client's stack recorded, each in the order in which they came. *)
Theorem C88_replayed : forall dumps loads ne ce n c nows p out, json_ok dumps loads -> in_order ne -> in_order ce ->
  record dumps loads [] ne = Some n -> record dumps loads [] ce = Some c ->
  play (get_parsed_both loads) (start_playing (combine [] n c)) nows = (p, out) -> playing p = false ->
  let inputs := flat_map (fun e => feed (snd e)) (delivered out) in
  filter (fun i => negb (is_client i)) inputs = node_inputs ne /\ filter is_client inputs = client_inputs ce.
Proof.
  intros dumps loads ne ce n c nows p out J ON OC N C E PL inputs.
  destruct (C88_combined dumps loads ne ce n c J N C) as (INC & KEYS & PARSE).
  assert (T : forall e, In e (combine [] n c) -> get_parsed_both loads (snd e) <> None) by (intros e I; rewrite (PARSE e I); discriminate).
  destruct (C88_played _ _ _ _ _ _ T E) as (_ & more & D & M). rewrite (M PL), app_nil_r in D. clear M.
  assert (DD : delivered out = map (fun e => (fst e, (at_time (fst e) ne, at_time (fst e) ce))) (combine [] n c)).
  { revert D PARSE. clear. generalize (delivered out). induction (combine [] n c) as [|e s IH]; intros d D PARSE; destruct d as [|x d]; try discriminate; [reflexivity|].
    cbn [map] in *. injection D as D1 D2 D3. rewrite (PARSE e (or_introl eq_refl)) in D2. injection D2 as D2. destruct x as (k, v). cbn [fst snd] in *. subst k v.
    f_equal. apply IH; [exact D3|intros e' I; apply PARSE; right; exact I]. }
  assert (IN : inputs = flat_map (fun k => feed (at_time k ne, at_time k ce)) (map fst (combine [] n c))).
  { unfold inputs. rewrite DD. clear. induction (combine [] n c) as [|e s IH]; [reflexivity|]. cbn [map flat_map fst snd]. rewrite IH. reflexivity. }
  set (fn := fun v => match v with Incoming m f => [FromNode m f] | Disconn ns => [Lost ns] | Outgoing _ _ => [] end).
  set (fc := fun v => match v with Incoming m f => [FromClient m f] | _ => [] end).
  assert (F1 : forall q l, filter q (flat_map fn l) = flat_map (fun v => filter q (fn v)) l).
  { intros q. induction l as [|v l IH]; [reflexivity|]. cbn [flat_map]. rewrite filter_app, IH. reflexivity. }
  assert (F2 : forall q l, filter q (flat_map fc l) = flat_map (fun v => filter q (fc v)) l).
  { intros q. induction l as [|v l IH]; [reflexivity|]. cbn [flat_map]. rewrite filter_app, IH. reflexivity. }
  assert (G1 : forall l, flat_map (fun v => filter (fun i => negb (is_client i)) (fn v)) l = flat_map fn l) by (induction l as [|[| |] l IH]; cbn [flat_map]; [reflexivity| | |]; rewrite IH; reflexivity).
  assert (G2 : forall l, flat_map (fun v => filter is_client (fn v)) l = []) by (induction l as [|[| |] l IH]; cbn [flat_map]; [reflexivity| | |]; rewrite IH; reflexivity).
  assert (G3 : forall l, flat_map (fun v => filter (fun i => negb (is_client i)) (fc v)) l = []) by (induction l as [|[| |] l IH]; cbn [flat_map]; [reflexivity| | |]; rewrite IH; reflexivity).
  assert (G4 : forall l, flat_map (fun v => filter is_client (fc v)) l = flat_map fc l) by (induction l as [|[| |] l IH]; cbn [flat_map]; [reflexivity| | |]; rewrite IH; reflexivity).
  assert (K : inc (map fst (combine [] n c))) by (apply increasing_inc, INC).
  rewrite IN. split.
  - transitivity (flat_map (fun k => flat_map fn (at_time k ne)) (map fst (combine [] n c))).
    + clear - F1 F2 G1 G3. induction (map fst (combine [] n c)) as [|k ks IH]; [reflexivity|]. cbn [flat_map]. rewrite filter_app, IH. f_equal.
      unfold feed. cbn [fst snd]. fold fn fc. rewrite filter_app, F1, F2, G1, G3, app_nil_r. reflexivity.
    + rewrite (walk fn); [reflexivity|exact K|exact ON|]. intros e I. apply KEYS. left. apply in_map, I.
  - transitivity (flat_map (fun k => flat_map fc (at_time k ce)) (map fst (combine [] n c))).
    + clear - F1 F2 G2 G4. induction (map fst (combine [] n c)) as [|k ks IH]; [reflexivity|]. cbn [flat_map]. rewrite filter_app, IH. f_equal.
      unfold feed. cbn [fst snd]. fold fn fc. rewrite filter_app, F1, F2, G2, G4. reflexivity.
    + rewrite (walk fc); [reflexivity|exact K|exact OC|]. intros e I. apply KEYS. right. apply in_map, I.
Qed.
Example C88_replayed_example :
  let (p, out) := play (get_parsed_both r) (start_playing (combine [] recorded recorded_c)) [0; 1; 2; 3; 6; 7]%Z in
  playing p = false /\ flat_map (fun e => feed (snd e)) (delivered out) =
    [FromNode 1 7; FromClient 11 20; FromNode 4 8; FromClient 12 21; Lost [7]].
Proof. vm_compute. split; reflexivity. Qed.

(** Refuted: a second replay combines the recordings on top of the store of the first; every entry that only the client's
    stack has is then unreadable. *)
Theorem C88_again_refuted : forall dumps loads ne ce n c k b, json_ok dumps loads ->
  record dumps loads [] ne = Some n -> record dumps loads [] ce = Some c ->
  at_time k ne = [] -> get k (combine (combine [] n c) n c) = Some b -> get_parsed_both loads b = None.
Proof.
  intros dumps loads ne ce n c k b J N C E G.
  destruct (record_holds dumps loads J ne) as (n' & N' & HN). rewrite N in N'. injection N' as <-.
  destruct (record_holds dumps loads J ce) as (c' & C' & HC). rewrite C in C'. injection C' as <-.
  destruct (combine_get dumps n c ne ce k HN HC) as (A & B). destruct HN as (NI & NH), HC as (CI & CH).
  unfold combine in G at 1. destruct (combine_n_get n (combine [] n c) k A NI) as (A1 & B1). destruct (combine_c_get c _ k A1 CI) as (_ & B2).
  rewrite B2, B1, B, NH, CH, E in G. destruct (at_time k ce) as [|cv cl] eqn:F; [discriminate|]. destruct J as (J1 & J2 & J3).
  assert (EQ : b = (n_prefix ++ separator ++ c_prefix ++ dumps (cv :: cl)) ++ c_prefix ++ dumps (cv :: cl)) by (injection G as <-; reflexivity).
  rewrite EQ. apply twice_bad; [apply J2|intros x I; apply (J3 _ x I)|intros x I; apply (J3 _ x I)].
Qed.
Example C88_again_example : at_time 4 nevs = [] /\ get 4 (combine (combine [] recorded recorded_c) recorded recorded_c) <> None.
Proof. vm_compute. split; [reflexivity|discriminate]. Qed.

(** ** Start times.  Runs that are started and stopped in turn are written down as they were. *)
Theorem C88_runs : forall rs, rs <> [] -> live None (flat_map (fun r => [Start (fst r); Stop (snd r)]) rs) =
  (Some (map (fun r => [fst r; snd r]) rs), true).
Proof.
  intros rs. induction rs as [|(s, e) rs IH] using rev_ind; [congruence|]. intros _. rewrite flat_map_app, map_app. destruct rs as [|r0 rs].
  - reflexivity.
  - rewrite (live_app _ None _ _ (IH ltac:(discriminate))). cbn [flat_map app live fst snd].
    assert (L : exists x, last_run (map (fun r => [fst r; snd r]) (r0 :: rs)) = Some x /\ length x = 2).
    { destruct (@exists_last _ (r0 :: rs) ltac:(discriminate)) as (q & z & ->). rewrite map_app. cbn [map]. rewrite last_run_snoc. eexists. split; reflexivity. }
    destruct L as (x & L1 & L2). unfold add_start_time. rewrite L1, L2. cbn [Nat.eqb]. unfold add_stop_time. rewrite last_run_snoc. cbn [length Nat.eqb].
    rewrite removelast_app by discriminate. cbn [removelast]. rewrite app_nil_r. reflexivity.
Qed.
Example C88_runs_example : live None [Start 1; Stop 5; Start 7; Stop 8] = (Some [[1; 5]; [7; 8]], true).
Proof. reflexivity. Qed.
(** Refuted: after a crash the node cannot be started again with recording on: the start raises. *)
Theorem C88_crash_refuted : forall f ls t f' ks t', live f (ls ++ [Start t]) = (f', true) ->
  live f' (repeat Crash ks ++ [Start t']) = (f', false).
Proof.
  intros f ls t f' ks t' H.
  assert (L : forall a f0, live f0 (a ++ [Start t]) = (f', true) -> exists l, f' = Some (l ++ [[t]])).
  { induction a as [|[x|x|] a IH]; intros f0; cbn [app live].
    - destruct (add_start_time f0 t) as [g|] eqn:E; [|discriminate]. intros Q. injection Q as <-. apply (start_open _ _ _ E).
    - destruct (add_start_time f0 x); [apply IH|discriminate].
    - destruct (add_stop_time f0 x); [apply IH|discriminate].
    - apply IH. }
  destruct (L ls f H) as (l & ->). induction ks as [|ks IH]; cbn [repeat app live]; [|exact IH].
  unfold add_start_time. rewrite last_run_snoc. reflexivity.
Qed.
Example C88_crash_example : live None ([Start 1; Stop 5] ++ [Start 7]) = (Some [[1; 5]; [7]], true).
Proof. reflexivity. Qed.
(** nor can the recording of a first run that has not been stopped be replayed *)
Theorem C88_unfinished_refuted : forall t ks, exists l, live None (Start t :: repeat Crash ks) = (Some l, true) /\ first_run l = None.
Proof. intros t ks. exists [[t]]. split; [|reflexivity]. cbn [live add_start_time]. induction ks; [reflexivity|assumption]. Qed.

Print Assumptions C88_recorded.
Print Assumptions C88_order.
Print Assumptions C88_boot_refuted.
Print Assumptions C88_played.
Print Assumptions C88_spaced.
Print Assumptions C88_prompt.
Print Assumptions C88_combined.
Print Assumptions C88_replayed.
Print Assumptions C88_again_refuted.
Print Assumptions C88_runs.
Print Assumptions C88_crash_refuted.
Print Assumptions C88_unfinished_refuted.
