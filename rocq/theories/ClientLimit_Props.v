(** C102: the client stack counts its clients, and is restarted when there are too many of them, but not too often. *)
From Coq Require Import List Arith ZArith Bool Lia.
From Verif Require Import Base ClientLimit_Model ClientLimit_Spec.
Import ListNotations.

Lemma events_app es es' : forall c n, handle_listener_events c es = Ok n ->
  handle_listener_events c (es ++ es') = handle_listener_events n es'.
Proof.
  induction es as [|[| |] es IH]; intros c n E; cbn [handle_listener_events app] in *; [congruence|auto| |auto].
  destruct (0 <? c); [auto|discriminate].
Qed.

(** ** The invariant: reading the events not read yet gives the number of the clients, or more if [exact] is false *)
Definition counts (exact : bool) (w : world) : Prop :=
  exists n, handle_listener_events (cs_count (w_stack w)) (w_events w) = Ok n /\
    (if exact then n = w_clients w else w_clients w <= n) /\ (w_open w = false -> w_events w = []).

Lemma counts_client x c w : counts x w -> counts x (client c w) /\ cs_next (w_stack (client c w)) = cs_next (w_stack w) /\
  w_restarts (client c w) = w_restarts w /\ w_open (client c w) = w_open w /\ w_stack (client c w) = w_stack w.
Proof.
  intros (n & E & L & Z). unfold client. destruct (w_open w) eqn:Op; [|split; [exists n; rewrite Op; auto|auto]].
  destruct c; [| |].
  - split; [|auto]. exists (n + 1). cbn [w_stack w_events w_clients w_open]. rewrite (events_app _ _ _ _ E). cbn [handle_listener_events].
    split; [reflexivity|]. split; [destruct x; lia|discriminate].
  - destruct (0 <? w_clients w) eqn:P; [|split; [exists n; rewrite Op; auto|auto]].
    apply Nat.ltb_lt in P. split; [|auto]. exists (n - 1). cbn [w_stack w_events w_clients w_open]. rewrite (events_app _ _ _ _ E). cbn [handle_listener_events].
    assert (0 < n) as Q by (destruct x; lia). apply Nat.ltb_lt in Q. rewrite Q. split; [reflexivity|]. split; [destruct x; lia|discriminate].
  - split; [|auto]. exists n. cbn [w_stack w_events w_clients w_open]. rewrite (events_app _ _ _ _ E). cbn [handle_listener_events].
    split; [reflexivity|]. split; [exact L|discriminate].
Qed.
Lemma clients_client c w : w_open w = true -> w_clients (client c w) = s_client (w_clients w) c.
Proof.
  intros Op. unfold client, s_client. rewrite Op. destruct c; cbn [w_clients]; auto.
  destruct (0 <? w_clients w) eqn:P; [reflexivity|]. apply Nat.ltb_ge in P. lia.
Qed.
Lemma counts_during x cs : forall w, counts x w -> w_open w = true -> let w' := fold_left (fun w c => client c w) cs w in
  counts x w' /\ w_open w' = true /\ w_restarts w' = w_restarts w /\ w_stack w' = w_stack w /\
  w_clients w' = fold_left s_client cs (w_clients w).
Proof.
  induction cs as [|c cs IH]; intros w I Op; cbn [fold_left]; [auto|].
  destruct (counts_client x c w I) as (I' & _ & R & O & St). destruct (IH (client c w) I') as (A & B & C & D & E); [congruence|].
  split; [exact A|]. split; [exact B|]. split; [congruence|]. split; [congruence|]. rewrite E, clients_client by exact Op. reflexivity.
Qed.

Section Limit.
  Variable cfg : config.

  (** A restart leaves the right count, whatever it was before *)
  Lemma restart_ok now after dev during w :
    let w' := restart cfg now after dev during w in
    counts true w' /\ w_open w' = true /\ w_restarts w' = w_restarts w ++ [now] /\
    w_clients w' = fold_left s_client during 0 /\
    (restart_enabled cfg = true -> cs_next (w_stack w') = (after + min_timeout cfg + dev)%Z).
  Proof.
    cbv zeta. unfold restart.
    (* the count that was there while the clients came back is replaced by 0, and no event of theirs was read *)
    set (f := fun w c => client c w).
    set (w0 := mkWorld true (mkStack 0 false 0%Z) [] 0 (w_restarts w)).
    assert (Q : forall cs (a b : world), w_open a = w_open b -> w_events a = w_events b -> w_clients a = w_clients b -> w_restarts a = w_restarts b ->
      w_open (fold_left f cs a) = w_open (fold_left f cs b) /\ w_events (fold_left f cs a) = w_events (fold_left f cs b) /\
      w_clients (fold_left f cs a) = w_clients (fold_left f cs b) /\ w_restarts (fold_left f cs a) = w_restarts (fold_left f cs b)).
    { induction cs as [|c cs IH]; intros a b A B C D; cbn [fold_left]; [auto|]. destruct a as [oa sa ea ca ra], b as [ob sb eb cb rb].
      cbn in A, B, C, D. subst. apply IH; unfold f, client; cbn; destruct ob, c; cbn; try reflexivity; destruct cb; reflexivity. }
    destruct (Q during (start (stop w)) w0) as (A & B & C & D); [reflexivity|reflexivity|reflexivity|reflexivity|].
    destruct (counts_during true during w0) as (I & Op & R & S0 & Cl); [exists 0; cbn; auto|reflexivity|].
    fold f in I, Op, R, S0, Cl. cbn [w_open w_restarts w_clients w_stack].
    split; [|split; [congruence|split; [rewrite D, R; reflexivity|split; [rewrite C, Cl; reflexivity|]]]].
    - destruct I as (n & E & L & Z). exists n. cbn [w_stack w_events w_clients w_open cs_count init_params]. rewrite B, C.
      rewrite S0 in E. cbn [cs_count w_stack w0] in E. split; [exact E|]. split; [exact L|congruence].
    - intros En. unfold init_params. rewrite En. reflexivity.
  Qed.

  Lemma service_ok x now after dev during w : counts x w -> let '(w', r) := service cfg now after dev during w in
    r = Ok tt /\ counts x w' /\ w_open w' = w_open w.
  Proof.
    intros (n & E & L & Z). unfold service. destruct (w_open w) eqn:Op; [|split; [reflexivity|split; [exists n; rewrite Op; auto|exact Op]]].
    rewrite E. unfold handle_connections_limit. cbv zeta. cbn [cs_count].
    destruct (if max_clients cfg <=? n then if restart_enabled cfg then _ else false else false).
    - set (w1 := mkWorld _ _ _ _ _). destruct (restart_ok now after dev during w1) as ((m & F & M & Y) & O & _).
      split; [reflexivity|]. split; [|exact O]. exists m. split; [exact F|]. split; [destruct x; lia|exact Y].
    - split; [reflexivity|]. split; [|reflexivity]. exists n. cbn. split; [reflexivity|]. split; [exact L|discriminate].
  Qed.

  Lemma counts_weak w : counts true w -> counts false w.
  Proof. intros (n & E & L & Z). exists n. split; [exact E|]. split; [lia|exact Z]. Qed.

  (** ** No exception, ever: also when the stack is stopped and started from outside *)
  Lemma never_fails now dev ops :
    counts false (fst (run cfg now dev ops)) /\ snd (run cfg now dev ops) = repeat (Ok tt) (services ops).
  Proof.
    unfold run. induction ops as [|o ops [IH IHr]] using rev_ind; [split; [exists 0; cbn; auto|reflexivity]|].
    rewrite fold_left_app. cbn [fold_left]. unfold services. rewrite filter_app, app_length.
    destruct (fold_left (step cfg) ops (new cfg now dev, [])) as [w xs]. cbn [fst snd] in *. fold (services ops).
    destruct o as [c|n a d du| |]; cbn [step filter length]; rewrite ?Nat.add_0_r.
    - split; [apply counts_client; exact IH|exact IHr].
    - pose proof (service_ok false n a d du w IH) as Q. destruct (service cfg n a d du w) as [w' r]. destruct Q as (-> & Q & _).
      cbn [fst snd]. split; [exact Q|]. rewrite IHr, repeat_app. reflexivity.
    - cbn [fst snd]. split; [|exact IHr]. destruct IH as (m & E & _). exists (cs_count (w_stack w)). cbn. split; [reflexivity|]. split; [lia|auto].
    - cbn [fst snd]. split; [|exact IHr]. unfold start. destruct (w_open w); [exact IH|]. exists (cs_count (w_stack w)). cbn. split; [reflexivity|]. split; [lia|auto].
  Qed.
  Theorem C102_no_exception now dev ops : snd (run cfg now dev ops) = repeat (Ok tt) (services ops).
  Proof. apply never_fails. Qed.

  (** ** Undisturbed, the stack does what is specified *)
  Lemma run_spec now dev ops : undisturbed ops ->
    let w := fst (run cfg now dev ops) in let s := s_run cfg now dev ops in
    counts true w /\ w_open w = true /\ w_clients w = s_clients s /\ w_restarts w = s_restarts s /\
    (restart_enabled cfg = true -> cs_next (w_stack w) = s_due s).
  Proof.
    cbv zeta. unfold run, s_run. induction ops as [|o ops IH] using rev_ind; intros U.
    - cbn. split; [exists 0; cbn; auto|]. split; [reflexivity|]. split; [reflexivity|]. split; [reflexivity|].
      intros En. rewrite En. reflexivity.
    - apply Forall_app in U as [U Uo]. rewrite !fold_left_app. cbn [fold_left]. destruct (IH U) as (I & Op & C & R & D). clear IH.
      destruct (fold_left (step cfg) ops (new cfg now dev, [])) as [w xs]. cbn [fst] in *.
      set (s := fold_left (s_step cfg) ops _) in *. clearbody s. inversion Uo as [|? ? Uo' _]; subst.
      destruct o as [c|n a d du| |]; cbn [step s_step]; try contradiction.
      + destruct (counts_client true c w I) as (I' & N & R' & O & _). cbn [fst s_clients s_restarts s_due].
        split; [exact I'|]. split; [congruence|]. split; [rewrite clients_client by exact Op; congruence|]. split; [congruence|].
        intros En. rewrite N. auto.
      + unfold service. rewrite Op. destruct I as (m & E & -> & Z). rewrite E. unfold handle_connections_limit, can_restart. cbv zeta. cbn [cs_count cs_next].
        rewrite C. destruct (restart_enabled cfg) eqn:En; cbn [andb]; [rewrite (D eq_refl)|].
        * destruct (max_clients cfg <=? s_clients s) eqn:M; cbn [andb]; [destruct (s_due s <? n)%Z eqn:T|].
          -- set (w1 := mkWorld _ _ _ _ _). destruct (restart_ok n a d du w1) as (I' & O & R' & C' & D'). cbn [fst s_clients s_restarts s_due].
             split; [exact I'|]. split; [exact O|]. split; [exact C'|]. split; [rewrite R'; cbn [w_restarts w1]; congruence|]. intros _. apply D'. exact En.
          -- cbn [fst w_clients w_restarts w_stack w_open cs_next]. split; [exists (s_clients s); cbn; auto|]. auto.
          -- cbn [fst w_clients w_restarts w_stack w_open cs_next]. split; [exists (s_clients s); cbn; auto|]. auto.
        * replace (if max_clients cfg <=? s_clients s then false else false) with false by (destruct (_ <=? _); reflexivity).
          cbn [fst w_clients w_restarts w_stack w_open cs_next]. split; [exists (s_clients s); cbn; auto|]. split; [auto|]. split; [auto|]. split; [auto|]. discriminate.
  Qed.

  (** The clients connected and the restarts are those specified. *)
  Theorem C102_exact now dev ops : undisturbed ops ->
    w_clients (fst (run cfg now dev ops)) = s_clients (s_run cfg now dev ops) /\
    w_restarts (fst (run cfg now dev ops)) = s_restarts (s_run cfg now dev ops).
  Proof. intros U. destruct (run_spec now dev ops U) as (_ & _ & C & R & _). auto. Qed.

  (** After a service that did not restart the stack, its count is the number of the clients connected. *)
  Theorem C102_count now dev ops t a d during : undisturbed ops ->
    let before := fst (run cfg now dev ops) in let after := fst (run cfg now dev (ops ++ [OService t a d during])) in
    w_restarts after = w_restarts before -> cs_count (w_stack after) = w_clients before /\ w_clients after = w_clients before.
  Proof.
    intros U. cbv zeta. destruct (run_spec now dev ops U) as (I & Op & _). unfold run. rewrite fold_left_app. cbn [fold_left].
    unfold run in *. destruct (fold_left (step cfg) ops (new cfg now dev, [])) as [w xs]. cbn [fst] in *. cbn [step].
    unfold service. rewrite Op. destruct I as (m & E & -> & Z). rewrite E. unfold handle_connections_limit. cbv zeta. cbn [cs_count].
    destruct (if max_clients cfg <=? _ then if restart_enabled cfg then _ else false else false); cbn [fst].
    - set (w1 := mkWorld _ _ _ _ _). destruct (restart_ok t a d during w1) as (_ & _ & R & _). rewrite R. cbn [w_restarts w1].
      intros Q. apply (f_equal (fun l => length l)) in Q. rewrite app_length in Q. cbn [length] in Q. lia.
    - auto.
  Qed.

  (** ** How often *)
  (** The services that restarted the stack: the time of the service and the time at which the stack was ready again *)
  Fixpoint restarted (s : sstate) (ops : list op) : list (Z * Z) :=
    match ops with
    | [] => []
    | o :: ops' =>
      let s' := s_step cfg s o in
      match o with
      | OService t a _ _ => if length (s_restarts s) <? length (s_restarts s') then (t, a) :: restarted s' ops' else restarted s' ops'
      | _ => restarted s' ops'
      end
    end.
  (** each restart is more than [gap] later than the end of the one before *)
  Fixpoint apart (gap last : Z) (l : list (Z * Z)) : Prop :=
    match l with [] => True | (t, a) :: l' => (last + gap < t)%Z /\ apart gap a l' end.

  Lemma apart_from max s last ops : deviations max ops -> (last + min_timeout cfg <= s_due s)%Z ->
    apart (min_timeout cfg) last (restarted s ops).
  Proof.
    revert s last. induction ops as [|o ops IH]; intros s last Dv L; [exact I|]. inversion Dv as [|? ? Do Dv']; subst.
    cbn [restarted]. destruct o as [c|t a d du| |]; try (apply IH; auto).
    cbn [s_step]. destruct (_ && _ && _) eqn:G; cbn [s_restarts].
    - rewrite app_length. cbn [length]. replace (length (s_restarts s) <? length (s_restarts s) + 1) with true by (symmetry; apply Nat.ltb_lt; lia).
      cbn [apart]. apply andb_prop in G as [_ G]. apply Z.ltb_lt in G. split; [lia|]. apply IH; [exact Dv'|]. cbn [s_due]. lia.
    - rewrite Nat.ltb_irrefl. apply IH; auto.
  Qed.
End Limit.

Lemma restarted_are cfg : forall ops s, s_restarts (fold_left (s_step cfg) ops s) = s_restarts s ++ map fst (restarted cfg s ops).
Proof.
  induction ops as [|o ops IH]; intros s; cbn [fold_left restarted map]; [rewrite app_nil_r; reflexivity|].
  rewrite IH. destruct o as [c|t a d du| |]; try reflexivity.
  cbn [s_step]. destruct (_ && _ && _); cbn [s_restarts].
  - rewrite app_length. cbn [length]. replace (length (s_restarts s) <? length (s_restarts s) + 1) with true by (symmetry; apply Nat.ltb_lt; lia).
    cbn [map fst]. rewrite <- app_assoc. reflexivity.
  - rewrite Nat.ltb_irrefl. reflexivity.
Qed.

(** The restarts of the stack, each with the time at which it was ready again, are more than the timeout apart. *)
Theorem C102_apart cfg max now dev ops : undisturbed ops -> deviations max ops -> (0 <= dev)%Z ->
  let l := restarted cfg (mkS 0 (now + min_timeout cfg + dev)%Z []) ops in
  map fst l = w_restarts (fst (run cfg now dev ops)) /\ apart (min_timeout cfg) now l.
Proof.
  intros U Dv Hd. cbv zeta. split.
  - destruct (C102_exact cfg now dev ops U) as [_ ->]. unfold s_run. rewrite restarted_are. reflexivity.
  - apply (apart_from cfg max); auto. cbn [s_due]. lia.
Qed.

(** Too many clients are not served for longer than the timeout and the deviation after the stack was last ready. *)
Definition last_ready (now : Z) (l : list (Z * Z)) : Z := fold_left (fun _ x => snd x) l now.

Lemma due_bound cfg max : forall ops s last, deviations max ops -> (s_due s <= last + min_timeout cfg + max)%Z ->
  (s_due (fold_left (s_step cfg) ops s) <= last_ready last (restarted cfg s ops) + min_timeout cfg + max)%Z.
Proof.
  induction ops as [|o ops IH]; intros s last Dv L; [exact L|]. inversion Dv as [|? ? Do Dv']; subst.
  cbn [fold_left restarted]. destruct o as [c|t a d du| |]; try (apply IH; auto).
  cbn [s_step]. destruct (_ && _ && _) eqn:G; cbn [s_restarts].
  - rewrite app_length. cbn [length]. replace (length (s_restarts s) <? length (s_restarts s) + 1) with true by (symmetry; apply Nat.ltb_lt; lia).
    unfold last_ready. cbn [fold_left snd]. apply IH; [exact Dv'|]. cbn [s_due]. lia.
  - rewrite Nat.ltb_irrefl. apply IH; auto.
Qed.

Theorem C102_bounded cfg max now dev ops t a d during : restart_enabled cfg = true -> undisturbed ops -> deviations max ops -> (dev <= max)%Z ->
  let init := mkS 0 (now + min_timeout cfg + dev)%Z [] in
  (last_ready now (restarted cfg init ops) + min_timeout cfg + max < t)%Z ->
  let before := fst (run cfg now dev ops) in let after := fst (run cfg now dev (ops ++ [OService t a d during])) in
  w_clients before < max_clients cfg \/ w_restarts after = w_restarts before ++ [t].
Proof.
  intros En U Dv Hd. cbv zeta. intros L.
  assert (U' : undisturbed (ops ++ [OService t a d during])) by (apply Forall_app; split; [exact U|repeat constructor]).
  destruct (run_spec cfg now dev ops U) as (_ & _ & C & R & _). destruct (run_spec cfg now dev _ U') as (_ & _ & _ & R' & _).
  rewrite C, R, R'. unfold s_run in *. rewrite fold_left_app. cbn [fold_left].
  pose proof (due_bound cfg max ops (mkS 0 (now + min_timeout cfg + dev)%Z []) now Dv) as B. cbn [s_due] in B. specialize (B ltac:(lia)).
  set (s := fold_left (s_step cfg) ops _) in *. clearbody s. cbn [s_step]. rewrite En. cbn [andb].
  destruct (max_clients cfg <=? s_clients s) eqn:M; [|left; apply Nat.leb_gt in M; exact M].
  right. replace (s_due s <? t)%Z with true by (symmetry; apply Z.ltb_lt; lia). reflexivity.
Qed.

(** With the restart disabled it never happens. *)
Theorem C102_disabled cfg now dev ops : restart_enabled cfg = false -> w_restarts (fst (run cfg now dev ops)) = [].
Proof.
  intros En. unfold run. induction ops as [|o ops IH] using rev_ind; [reflexivity|]. rewrite fold_left_app. cbn [fold_left].
  destruct (fold_left (step cfg) ops (new cfg now dev, [])) as [w xs]. cbn [fst] in *.
  destruct o as [c|t a d du| |]; cbn [step fst].
  - unfold client. destruct (w_open w); [|exact IH]. destruct c; cbn; auto. destruct (w_clients w); auto.
  - unfold service. destruct (w_open w); [|exact IH]. destruct (handle_listener_events _ _); [|exact IH].
    unfold handle_connections_limit. rewrite En. cbv zeta. replace (if max_clients cfg <=? _ then false else false) with false by (destruct (_ <=? _); reflexivity). exact IH.
  - exact IH.
  - unfold start. destruct (w_open w); exact IH.
Qed.

(** ** The stack stopped and started again from outside keeps its count, while all its clients are gone. *)
Definition come_stop_start (n : nat) (t : Z) : list op :=
  repeat (OClient Comes) n ++ [OService t t 0 []; OStop; OStart; OService t t 0 []].

Lemma come_many cfg n : forall w xs, w_open w = true ->
  fold_left (step cfg) (repeat (OClient Comes) n) (w, xs)
    = (mkWorld true (w_stack w) (w_events w ++ repeat Accepted n) (w_clients w + n) (w_restarts w), xs).
Proof.
  induction n as [|n IH]; intros w xs Op; cbn [repeat fold_left].
  - rewrite app_nil_r, Nat.add_0_r. destruct w; cbn in *; subst; reflexivity.
  - cbn [step]. unfold client. rewrite Op, IH by reflexivity. cbn [w_stack w_events w_clients w_restarts]. rewrite <- app_assoc. cbn [app].
    do 2 f_equal. lia.
Qed.
Lemma read_many n : forall c, handle_listener_events c (repeat Accepted n) = Ok (c + n).
Proof. induction n as [|n IH]; intros c; cbn [repeat handle_listener_events]; [f_equal; lia|]. rewrite IH. f_equal. lia. Qed.

(** Before the restart is due: the count stays [n] with no client connected. *)
Theorem C102_stop_refuted cfg now dev n t : (restart_enabled cfg = true -> t <= now + min_timeout cfg + dev)%Z ->
  let w := fst (run cfg now dev (come_stop_start n t)) in
  w_clients w = 0 /\ cs_count (w_stack w) = n /\ cs_reached (w_stack w) = (max_clients cfg <=? n).
Proof.
  intros T. cbv zeta. unfold run, come_stop_start. rewrite fold_left_app, come_many by reflexivity. unfold new.
  cbn [w_stack w_events w_clients w_restarts app]. cbn [fold_left step].
  assert (G : (if max_clients cfg <=? n then if restart_enabled cfg then (cs_next (init_params cfg now dev 0) <? t)%Z else false else false) = false).
  { unfold init_params. destruct (max_clients cfg <=? n); [|reflexivity]. destruct (restart_enabled cfg) eqn:En; [|reflexivity].
    cbn [cs_next]. apply Z.ltb_ge. auto. }
  set (ip := init_params cfg now dev 0) in *. assert (C0 : cs_count ip = 0) by reflexivity. clearbody ip.
  unfold service. cbn [w_open w_stack w_events]. rewrite C0, read_many. cbn [Nat.add].
  unfold handle_connections_limit, can_restart. cbn [cs_count cs_next]. rewrite G. cbn [fst w_open stop start w_stack w_events w_clients w_restarts cs_count cs_next handle_listener_events].
  cbn [step]. unfold service. cbn [w_open stop start w_stack w_events cs_count cs_next handle_listener_events w_clients w_restarts].
  unfold handle_connections_limit, can_restart. cbn [cs_count cs_next]. rewrite G. cbn [fst w_clients w_stack cs_count cs_reached]. auto.
Qed.

(** ** Examples: at most 2 clients, 10 seconds *)
Definition ex_cfg : config := mkConfig true 2 10.
Definition ex_ops : list op :=
  [OClient Comes; OClient Comes; OService 5 5 0 []; OClient Goes; OService 20 20 0 []; OClient Comes; OClient Comes;
   OService 21 23 1 [Comes; Noise]; OClient Comes; OService 30 30 0 []; OService 35 37 2 []].
Example C102_ex : undisturbed ex_ops /\ deviations 3 ex_ops /\
  w_restarts (fst (run ex_cfg 0 3 ex_ops)) = [21; 35]%Z /\
  restarted ex_cfg (mkS 0 13 []) ex_ops = [(21, 23); (35, 37)]%Z /\ w_clients (fst (run ex_cfg 0 3 ex_ops)) = 0.
Proof. split; [repeat constructor|]. split; [repeat constructor; lia|]. repeat split; reflexivity. Qed.
Example C102_bounded_ex : let ops := firstn 9 ex_ops in
  (last_ready 0 (restarted ex_cfg (mkS 0 13 []) ops) + min_timeout ex_cfg + 3 < 37)%Z /\ w_clients (fst (run ex_cfg 0 3 ops)) = 2.
Proof. split; reflexivity. Qed.
(** With three clients that were there before the stop: too many, though nobody is connected *)
Example C102_stop_ex : let w := fst (run ex_cfg 0 3 (come_stop_start 3 5)) in cs_reached (w_stack w) = true /\ w_clients w = 0.
Proof. split; reflexivity. Qed.

Print Assumptions C102_no_exception.
Print Assumptions C102_exact.
Print Assumptions C102_count.
Print Assumptions C102_apart.
Print Assumptions C102_bounded.
Print Assumptions C102_disabled.
Print Assumptions C102_stop_refuted.
