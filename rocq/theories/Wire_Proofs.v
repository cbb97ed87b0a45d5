From Coq Require Import List Arith Bool Lia Permutation.
Import ListNotations.
From Verif Require Import Dict Wire_Model Wire_Spec.

Section Proofs.
  Variable key_utf8 : nat -> bool.
  Variable only_listener : bool.
  Variables len_limit stash_limit sender_quota : nat.
  Let acc := accepted key_utf8 len_limit.
  Let rep := reports key_utf8 len_limit.
  Let vaa := verify_and_append key_utf8 len_limit.
  Let from_listener := from_listener key_utf8 len_limit.
  Let from_socket := from_socket key_utf8 len_limit sender_quota.
  Let from_sockets := from_sockets key_utf8 len_limit sender_quota.
  Let process_one := process_one only_listener stash_limit.
  Let process_received := process_received only_listener stash_limit.
  Let service := service key_utf8 only_listener len_limit stash_limit sender_quota.
  Let step := step key_utf8 only_listener len_limit stash_limit sender_quota.
  Let run := run key_utf8 only_listener len_limit stash_limit sender_quota.

  (** all but the two lists of messages and the notices stays *)
  Definition adds (l : list (msg * nat)) (r : list (nat * nat)) (s s' : stack) : Prop :=
    rx s' = rx s ++ l /\ seen s' = seen s ++ l /\ rejected s' = rejected s ++ r /\ stash s' = stash s /\ out s' = out s
    /\ participating s' = participating s.
  Lemma adds_refl s s' : rx s' = rx s -> seen s' = seen s -> rejected s' = rejected s -> stash s' = stash s -> out s' = out s ->
    participating s' = participating s -> adds [] [] s s'.
  Proof. unfold adds. rewrite !app_nil_r. intuition. Qed.
  Lemma adds_trans l r l' r' s s' s'' : adds l r s s' -> adds l' r' s' s'' -> adds (l ++ l') (r ++ r') s s''.
  Proof.
    intros (A1 & A2 & A3 & A4 & A5 & A6) (B1 & B2 & B3 & B4 & B5 & B6). unfold adds. rewrite B1, B2, B3, A1, A2, A3, <- !app_assoc. intuition congruence.
  Qed.

  Lemma vaa_adds k m s : m_len m <> 0 -> adds (acc [Parts k [m]]) (rep [Parts k [m]]) s (vaa k m s)
    /\ listener (vaa k m s) = listener s /\ socks (vaa k m s) = socks s.
  Proof.
    intros N. unfold vaa, verify_and_append, acc, rep, accepted, reports, reals. cbn [flat_map real]. destruct (Nat.eqb_spec (m_len m) 0); [contradiction|].
    cbn [app filter]. unfold fine, bad. cbn [fst snd]. destruct (key_utf8 k); cbn [negb andb]; [|split; [apply adds_refl; reflexivity|auto]].
    destruct ((m_len m <=? len_limit) && m_utf8 m); cbn [negb map filter app fst snd]; (split; [|auto]); unfold adds; cbn; rewrite ?app_nil_r; auto 10.
  Qed.
  Lemma acc_app a b : acc (a ++ b) = acc a ++ acc b.
  Proof. unfold acc, accepted, reals. rewrite flat_map_app, filter_app. reflexivity. Qed.
  Lemma rep_app a b : rep (a ++ b) = rep a ++ rep b.
  Proof. unfold rep, reports, reals. rewrite flat_map_app, filter_app, map_app. reflexivity. Qed.
  Lemma acc_skip f : real f = [] -> acc [f] = [] /\ rep [f] = [].
  Proof. intros R. unfold acc, rep, accepted, reports, reals. cbn [flat_map]. rewrite R. split; reflexivity. Qed.

  Lemma adds_listener l r s s' fs : adds l r s s' -> adds l r s (with_listener fs s').
  Proof. intros A. exact A. Qed.
  Lemma adds_socks l r s s' d : adds l r s s' -> adds l r s (with_socks d s').
  Proof. intros A. exact A. Qed.

  (** ** reading from the listener *)
  Definition listener_result (q : quota) (i size : nat) (fs : list frame) (s : stack) (s' : stack) (n : nat) : Prop :=
    exists taken rest, fs = taken ++ rest /\ listener s' = rest /\ socks s' = socks s /\ adds (acc taken) (rep taken) s s'
      /\ n = i + length (reals taken)
      /\ (rest = [] \/ q_count q <= n \/ q_size q <= size + bytes (reals taken))
      /\ (reals taken <> [] -> n <= q_count q /\ size + bytes (removelast (reals taken)) < q_size q).
  Lemma listener_full q fs : forall i size s s' n, from_listener q i size fs s = Some (s', n) -> listener_result q i size fs s s' n.
  Proof.
    unfold from_listener. induction fs as [|f fs IH]; intros i size s s' n; cbn [Wire_Model.from_listener].
    - intros E. assert (s' = with_listener [] s /\ n = i) as (-> & ->) by (destruct (_ && _); split; congruence).
      exists [], []. cbn [app reals flat_map length]. rewrite Nat.add_0_r.
      split; [reflexivity|]. split; [reflexivity|]. split; [reflexivity|]. split; [apply adds_refl; reflexivity|]. split; [reflexivity|]. split; [auto|]. intros H. congruence.
    - destruct ((i <? q_count q) && (size <? q_size q)) eqn:G.
      + apply andb_true_iff in G as (G1 & G2). apply Nat.ltb_lt in G1, G2.
        assert (Skip : real f = [] -> Wire_Model.from_listener key_utf8 len_limit q i size fs s = Some (s', n) -> listener_result q i size (f :: fs) s s' n).
        { intros R E. destruct (IH _ _ _ _ _ E) as (taken & rest & Ef & L & Sk & A & N & C & B).
          exists (f :: taken), rest. unfold reals in *. cbn [flat_map]. rewrite R. cbn [app]. destruct (acc_skip f R) as (A1 & A2).
          split; [rewrite Ef; reflexivity|]. split; [exact L|]. split; [exact Sk|]. split; [|split; [exact N|split; [exact C|exact B]]].
          change (f :: taken) with ([f] ++ taken). rewrite acc_app, rep_app, A1, A2. exact A. }
        destruct f as [k [|m [|m' ps]]|]; [discriminate| |exact (Skip eq_refl)|exact (Skip eq_refl)].
        destruct (Nat.eqb_spec (m_len m) 0) as [Z|Z].
        * apply Skip. cbn [real]. apply Nat.eqb_eq in Z. rewrite Z. reflexivity.
        * intros E. destruct (vaa_adds k m s Z) as (A0 & L0 & S0). destruct (IH _ _ _ _ _ E) as (taken & rest & Ef & L & Sk & A & N & C & B).
          unfold vaa in A0, L0, S0. exists (Parts k [m] :: taken), rest.
          assert (R : reals (Parts k [m] :: taken) = (m, k) :: reals taken).
          { unfold reals. cbn [flat_map real]. destruct (Nat.eqb_spec (m_len m) 0); [contradiction|reflexivity]. }
          rewrite R. split; [rewrite Ef; reflexivity|]. split; [exact L|]. split; [congruence|]. split; [|split; [|split]].
          -- change (Parts k [m] :: taken) with ([Parts k [m]] ++ taken). rewrite acc_app, rep_app. exact (adds_trans _ _ _ _ _ _ _ A0 A).
          -- cbn [length]. lia.
          -- cbn [bytes fold_right fst]. fold (bytes (reals taken)). destruct C as [C|[C|C]]; [auto|auto|right; right; lia].
          -- intros _. destruct (reals taken) as [|x l] eqn:RT.
             ++ cbn [removelast bytes fold_right length] in *. rewrite Nat.add_0_r. split; [lia|lia].
             ++ assert (NE : x :: l <> []) by discriminate. destruct (B NE) as (B1 & B2). split; [exact B1|].
                change (removelast ((m, k) :: x :: l)) with ((m, k) :: removelast (x :: l)). cbn [bytes fold_right fst]. fold (bytes (removelast (x :: l))). lia.
      + intros E. injection E as <- <-. exists [], (f :: fs). cbn [app reals flat_map length bytes fold_right].
        rewrite Nat.add_0_r. split; [reflexivity|]. split; [reflexivity|]. split; [reflexivity|]. split; [apply adds_refl; reflexivity|]. split; [lia|].
        split; [|intros H; congruence]. apply andb_false_iff in G as [G|G]; apply Nat.ltb_ge in G; right; [left|right]; lia.
  Qed.

  Lemma listener_ok q fs : (forall k, ~ In (Parts k []) fs) -> forall i size s, from_listener q i size fs s <> None.
  Proof.
    unfold from_listener. induction fs as [|f fs IH]; intros NP i size s; cbn [Wire_Model.from_listener]; [destruct (_ && _); discriminate|].
    assert (NP' : forall k, ~ In (Parts k []) fs) by (intros k I; apply (NP k); right; exact I).
    destruct (_ && _); [|discriminate]. destruct f as [k [|m [|m' ps]]|]; [exfalso; apply (NP k); left; reflexivity| |apply (IH NP')|apply (IH NP')].
    destruct (m_len m =? 0); apply (IH NP').
  Qed.

  (** ** reading from the sockets of known senders *)
  (** frames of a socket, with the sender it belongs to *)
  Definition owned (k : nat) (fs : list frame) : list frame := map (fun f => match f with Parts _ ps => Parts k ps | Fail => Fail end) fs.
  Definition single (f : frame) : Prop := match f with Parts _ ps => length ps = 1 | Fail => True end.
  Lemma socket_some k fs : forall i s s' n, from_socket k i fs s = Some (s', n) ->
    exists taken rest, fs = taken ++ rest /\ listener s' = listener s /\ socks s' = set k rest (socks s) /\ adds (acc (owned k taken)) (rep (owned k taken)) s s'
      /\ n = i + length (reals taken) /\ (i <= sender_quota -> n <= sender_quota).
  Proof.
    unfold from_socket. induction fs as [|f fs IH]; intros i s s' n; cbn [Wire_Model.from_socket].
    - intros E. exists [], []. assert (s' = with_socks (set k [] (socks s)) s /\ n = i) as (-> & ->) by (destruct (_ <? _); split; congruence).
      cbn [owned map reals flat_map length]. rewrite Nat.add_0_r. split; [reflexivity|]. split; [reflexivity|]. split; [reflexivity|]. split; [apply adds_refl; reflexivity|auto].
    - destruct (Nat.ltb_spec i sender_quota) as [G|G].
      + assert (Skip : real f = [] -> (forall k', real (match f with Parts _ ps => Parts k' ps | Fail => Fail end) = []) -> Wire_Model.from_socket key_utf8 len_limit sender_quota k i fs s = Some (s', n) ->
                  exists taken rest, f :: fs = taken ++ rest /\ listener s' = listener s /\ socks s' = set k rest (socks s) /\ adds (acc (owned k taken)) (rep (owned k taken)) s s'
                  /\ n = i + length (reals taken) /\ (i <= sender_quota -> n <= sender_quota)).
        { intros R R' E. destruct (IH _ _ _ _ E) as (taken & rest & Ef & L & Sk & A & N & B). exists (f :: taken), rest.
          split; [rewrite Ef; reflexivity|]. split; [exact L|]. split; [exact Sk|]. unfold reals in *. cbn [flat_map]. rewrite R. cbn [app]. split; [|auto].
          cbn [owned map]. fold (owned k taken). destruct (acc_skip _ (R' k)) as (A1 & A2).
          set (f' := match f with Parts _ ps => Parts k ps | Fail => Fail end) in *. change (f' :: owned k taken) with ([f'] ++ owned k taken).
          rewrite acc_app, rep_app, A1, A2. exact A. }
        destruct f as [k' [|m [|m' ps]]|]; [discriminate| |discriminate|exact (Skip eq_refl (fun _ => eq_refl))].
        destruct (Nat.eqb_spec (m_len m) 0) as [Z|Z].
        * apply Skip; [|intros k0]; cbn [real]; apply Nat.eqb_eq in Z; rewrite Z; reflexivity.
        * intros E. destruct (vaa_adds k m s Z) as (A0 & L0 & S0). destruct (IH _ _ _ _ E) as (taken & rest & Ef & L & Sk & A & N & B).
          exists (Parts k' [m] :: taken), rest. split; [rewrite Ef; reflexivity|]. unfold vaa in L0, S0, A0. split; [congruence|]. split; [congruence|].
          assert (R : reals (Parts k' [m] :: taken) = (m, k') :: reals taken).
          { unfold reals. cbn [flat_map real]. destruct (Nat.eqb_spec (m_len m) 0); [contradiction|reflexivity]. }
          rewrite R. cbn [length]. split; [|split; [lia|intros _; apply B; lia]].
          cbn [owned map]. fold (owned k taken). change (Parts k [m] :: owned k taken) with ([Parts k [m]] ++ owned k taken). rewrite acc_app, rep_app.
          exact (adds_trans _ _ _ _ _ _ _ A0 A).
      + intros E. injection E as <- <-. exists [], (f :: fs). cbn [owned map reals flat_map length]. rewrite Nat.add_0_r.
        split; [reflexivity|]. split; [reflexivity|]. split; [reflexivity|]. split; [apply adds_refl; reflexivity|auto].
  Qed.
  Lemma socket_ok k fs : Forall single fs -> forall i s, from_socket k i fs s <> None.
  Proof.
    unfold from_socket. induction 1 as [|f fs F1 F2 IH]; intros i s; cbn [Wire_Model.from_socket]; [destruct (_ <? _); discriminate|].
    destruct (i <? sender_quota); [|discriminate]. destruct f as [k' [|m [|m' ps]]|]; cbn in F1; try discriminate; [|apply IH].
    destruct (m_len m =? 0); apply IH.
  Qed.
  Lemma in_set_get {V} k (v : V) d k' : In k' (map fst d) -> In k' (map fst (set k v d)).
  Proof. intros I. apply set_keys. right. exact I. Qed.

  Lemma keys_set {V} k (v : V) d : In k (map fst d) -> map fst (set k v d) = map fst d.
  Proof.
    induction d as [|(k0, v0) d IH]; cbn; [intros []|]. destruct (Nat.eqb_spec k k0) as [->|N]; cbn; [reflexivity|]. intros [E|I]; [congruence|]. rewrite IH by exact I. reflexivity.
  Qed.
  Lemma sockets_some ks : forall s s', from_sockets ks s = Some s' -> incl ks (map fst (socks s)) ->
    exists l r, adds l r s s' /\ listener s' = listener s /\ map fst (socks s') = map fst (socks s) /\ length l <= length ks * sender_quota
      /\ (forall x, In x l -> In (snd x) ks).
  Proof.
    unfold from_sockets. induction ks as [|k ks IH]; intros s s' E Inc; cbn [Wire_Model.from_sockets] in E.
    - injection E as <-. exists [], []. split; [apply adds_refl; reflexivity|]. split; [reflexivity|]. split; [reflexivity|]. split; [cbn; lia|intros ? []].
    - fold (from_socket k 0 (get_or k [] (socks s)) s) in E. destruct (from_socket k 0 (get_or k [] (socks s)) s) as [(s1, n)|] eqn:E1; [|discriminate].
      destruct (socket_some _ _ _ _ _ _ E1) as (taken & rest & Ef & L & Sk & A & N & B).
      assert (K : In k (map fst (socks s))) by (apply Inc; left; reflexivity).
      assert (Ks : map fst (socks s1) = map fst (socks s)) by (rewrite Sk; apply keys_set; exact K).
      destruct (IH s1 s' E) as (l & r & A' & L' & K' & Len & In'). { rewrite Ks. intros x X. apply Inc. right. exact X. }
      exists (acc (owned k taken) ++ l), (rep (owned k taken) ++ r). split; [exact (adds_trans _ _ _ _ _ _ _ A A')|]. split; [congruence|]. split; [congruence|].
      split.
      + rewrite app_length. specialize (B (Nat.le_0_l _)).
        assert (length (acc (owned k taken)) <= length (reals taken)).
        { clear. unfold acc, accepted, reals. induction taken as [|f t IHt]; [cbn; lia|].
          cbn [owned map flat_map]. fold (owned k t). rewrite filter_app, !app_length.
          assert (length (filter (fine key_utf8 len_limit) (real (match f with Parts _ ps => Parts k ps | Fail => Fail end))) <= length (real f)); [|lia].
          destruct f as [k' [|m [|m' ps]]|]; cbn; try lia. destruct (m_len m =? 0); cbn; [lia|]. destruct (fine _ _ _); cbn; lia. }
        cbn [length]. lia.
      + intros x X. apply in_app_iff in X as [X|X]; [|right; exact (In' x X)]. left. unfold acc, accepted in X. apply filter_In in X as (X & _).
        unfold reals in X. apply in_flat_map in X as (f & F1 & F2). unfold owned in F1. apply in_map_iff in F1 as (f0 & <- & _).
        destruct f0 as [k' [|m [|m' ps]]|]; cbn in F2; try contradiction. destruct (m_len m =? 0); [destruct F2|]. destruct F2 as [<-|[]]. reflexivity.
  Qed.
  Lemma sockets_ok ks : forall s, (forall k fs, get k (socks s) = Some fs -> Forall single fs) -> from_sockets ks s <> None.
  Proof.
    unfold from_sockets. induction ks as [|k ks IH]; intros s F; cbn [Wire_Model.from_sockets]; [discriminate|].
    fold (from_socket k 0 (get_or k [] (socks s)) s). destruct (from_socket k 0 (get_or k [] (socks s)) s) as [(s1, n)|] eqn:E1.
    - apply IH. destruct (socket_some _ _ _ _ _ _ E1) as (taken & rest & Ef & L & Sk & _). intros k' fs' G. rewrite Sk, get_set in G.
      destruct (Nat.eqb_spec k' k) as [->|Nk]; [|exact (F k' fs' G)]. injection G as <-. unfold get_or in Ef. destruct (get k (socks s)) as [fs|] eqn:Gk.
      + specialize (F k fs Gk). rewrite Ef in F. apply Forall_app in F. exact (proj2 F).
      + destruct taken; [|discriminate]. cbn in Ef. subst rest. constructor.
    - exfalso. revert E1. apply socket_ok. unfold get_or. destruct (get k (socks s)) as [fs|] eqn:Gk; [exact (F k fs Gk)|constructor].
  Qed.

  (** ** taking messages out of the queue *)
  Definition frame_po (s s' : stack) : Prop :=
    listener s' = listener s /\ socks s' = socks s /\ rx s' = rx s /\ participating s' = participating s /\ rejected s' = rejected s /\ seen s' = seen s.
  Lemma process_one_ok x s : frame_po s (process_one x s)
    /\ Permutation (x :: map fst (out s) ++ stash s) (map fst (out (process_one x s)) ++ stash (process_one x s))
    /\ (length (stash s) <= stash_limit -> length (stash (process_one x s)) <= stash_limit).
  Proof.
    assert (P0 : forall f, Permutation (x :: map fst (out s) ++ stash s) (map fst (out (settle x f s)) ++ stash (settle x f s))).
    { intros f. unfold settle. cbn [out stash]. rewrite map_app. cbn [map fst]. rewrite <- app_assoc. cbn [app]. apply Permutation_middle. }
    unfold process_one, Wire_Model.process_one.
    destruct (m_ping (fst x)); [split; [repeat split|split; [apply P0|auto]]|].
    destruct (negb only_listener && _); [|split; [repeat split|split; [apply P0|auto]]].
    destruct (participating s); [split; [repeat split|split; [apply P0|auto]]|].
    destruct (Nat.eqb_spec stash_limit 0) as [Z|Z]; [split; [repeat split|split; [apply P0|auto]]|].
    destruct (stash s) as [|y rest] eqn:E.
    - split; [repeat split|]. unfold with_stash. cbn [out stash]. split; [rewrite app_nil_r; apply Permutation_cons_append|cbn; lia].
    - destruct (Nat.leb_spec stash_limit (length (y :: rest))) as [L|L]; (split; [repeat split|]).
      + unfold settle, with_stash. cbn [out stash]. rewrite map_app. cbn [map fst]. rewrite <- app_assoc. cbn [app]. split; [|rewrite app_length; cbn in *; lia].
        change (x :: map fst (out s) ++ y :: rest) with ([x] ++ (map fst (out s) ++ y :: rest)). rewrite Permutation_app_comm, <- app_assoc. reflexivity.
      + unfold with_stash. cbn [out stash]. split; [|rewrite app_length; cbn in *; lia].
        change (x :: map fst (out s) ++ y :: rest) with ([x] ++ (map fst (out s) ++ y :: rest)). rewrite Permutation_app_comm, <- app_assoc. reflexivity.
  Qed.

  Definition conserved (s : stack) : Prop := Permutation (seen s) (map fst (out s) ++ stash s ++ rx s) /\ length (stash s) <= stash_limit.

  Lemma process_received_ok limit : forall s, let '(s', n) := process_received limit s in
    n = Nat.min limit (length (rx s)) /\ rx s' = skipn limit (rx s) /\ listener s' = listener s /\ socks s' = socks s /\ seen s' = seen s
    /\ participating s' = participating s /\ rejected s' = rejected s /\ (conserved s -> conserved s').
  Proof.
    induction limit as [|limit IH]; intros s; cbn [Wire_Model.process_received process_received]; [cbn; intuition|].
    unfold process_received in *. cbn [Wire_Model.process_received]. destruct (rx s) as [|x rest] eqn:R; [cbn; intuition|].
    specialize (IH (process_one x (with_rx rest s))). fold process_one. destruct (Wire_Model.process_received only_listener stash_limit limit (process_one x (with_rx rest s))) as (s', n).
    destruct IH as (N & R' & L & Sk & Se & Pa & Re & C). destruct (process_one_ok x (with_rx rest s)) as ((F1 & F2 & F3 & F4 & F5 & F6) & P & B).
    cbn [with_rx rx listener socks seen participating rejected stash out] in *. rewrite F3 in N, R'. cbn [length skipn].
    split; [rewrite N; lia|]. split; [exact R'|]. split; [congruence|]. split; [congruence|]. split; [congruence|]. split; [congruence|]. split; [congruence|].
    intros (C1 & C2). apply C. split; [|exact (B C2)]. rewrite F6, F3, C1, R, app_assoc, app_assoc, <- P.
    symmetry. apply (Permutation_middle (map fst (out s) ++ stash s) rest x).
  Qed.

  Lemma adds_conserved l r s s' : adds l r s s' -> conserved s -> conserved s'.
  Proof.
    intros (A1 & A2 & A3 & A4 & A5 & A6) (C1 & C2). split; [|congruence]. rewrite A1, A2, A4, A5, C1, !app_assoc. reflexivity.
  Qed.

  (** what a call of [service] does *)
  Lemma service_some limit q s s' n : service limit q s = Some (s', n) ->
    exists taken rest l r s2, listener s = taken ++ rest /\ listener s' = rest /\ map fst (socks s') = map fst (socks s)
      /\ length (reals taken) <= q_count q
      /\ adds (acc taken ++ l) (rep taken ++ r) s s2 /\ seen s' = seen s2 /\ rejected s' = rejected s2 /\ length l <= length (socks s) * sender_quota
      /\ (forall x, In x l -> In (snd x) (map fst (socks s))) /\ map fst (socks s2) = map fst (socks s)
      /\ (s', n) = process_received (if limit =? 0 then length (rx s2) else limit) s2.
  Proof.
    unfold service, Wire_Model.service. fold (from_listener q 0 0 (listener s) s). destruct (from_listener q 0 0 (listener s) s) as [(s1, n1)|] eqn:E1; [|discriminate].
    fold (from_sockets (map fst (socks s1)) s1). destruct (from_sockets (map fst (socks s1)) s1) as [s2|] eqn:E2; [|discriminate].
    intros E. assert (E' : (s', n) = process_received (if limit =? 0 then length (rx s2) else limit) s2) by (unfold process_received; congruence). clear E.
    destruct (listener_full _ _ _ _ _ _ _ E1) as (taken & rest & Ef & L & Sk & A & Nt & _ & Bt). destruct (sockets_some _ _ _ E2 (incl_refl _)) as (l & r & A' & L' & K' & Len & In').
    exists taken, rest, l, r, s2. pose proof (process_received_ok (if limit =? 0 then length (rx s2) else limit) s2) as P. rewrite <- E' in P.
    destruct P as (N & R & Ln & Sn & Se & Pa & Re & C).
    split; [exact Ef|]. split; [congruence|]. split; [congruence|].
    split; [destruct (reals taken) as [|x0 l0] eqn:RT; [cbn; lia|]; destruct (Bt ltac:(discriminate)) as (Bt1 & _); lia|].
    split; [exact (adds_trans _ _ _ _ _ _ _ A A')|]. split; [exact Se|]. split; [exact Re|].
    rewrite <- Sk. split; [rewrite map_length in Len; exact Len|]. split; [exact In'|]. split; [exact K'|exact E'].
  Qed.
  Lemma service_ok limit q s : (forall k, ~ In (Parts k []) (listener s)) -> (forall k fs, get k (socks s) = Some fs -> Forall single fs) -> service limit q s <> None.
  Proof.
    intros NL NS. unfold service, Wire_Model.service. fold (from_listener q 0 0 (listener s) s).
    destruct (from_listener q 0 0 (listener s) s) as [(s1, n1)|] eqn:E1; [|exfalso; exact (listener_ok q (listener s) NL 0 0 s E1)].
    destruct (listener_full _ _ _ _ _ _ _ E1) as (t & r & _ & _ & Sk & _). fold (from_sockets (map fst (socks s1)) s1). destruct (from_sockets (map fst (socks s1)) s1) eqn:E2; [discriminate|].
    exfalso. revert E2. apply sockets_ok. rewrite Sk. exact NS.
  Qed.

  (** ** histories *)
  Lemma process_unknown_conserved s : conserved s -> conserved (process_unknown only_listener stash_limit s).
  Proof.
    intros (C1 & C2). unfold process_unknown. set (s1 := with_stash [] (with_rx (rx s ++ stash s) s)).
    pose proof (process_received_ok (length (rx s1)) s1) as P. unfold process_received in P. destruct (Wire_Model.process_received _ _ _ s1) as (s', n).
    destruct P as (_ & _ & _ & _ & _ & _ & _ & C). apply C. split; [|cbn; lia]. cbn. rewrite C1. apply Permutation_app_head. apply Permutation_app_comm.
  Qed.
  Lemma step_conserved s o s' : conserved s -> step s o = Some s' -> conserved s'.
  Proof.
    intros C. unfold step. destruct o as [f|k f|limit q|k|k|b|]; cbn [Wire_Model.step].
    - intros E. injection E as <-. exact C.
    - intros E. injection E as <-. destruct (get k (socks s)); exact C.
    - fold (service limit q s). destruct (service limit q s) as [(s1, n)|] eqn:E1; [|discriminate]. intros E. injection E as <-.
      destruct (service_some _ _ _ _ _ E1) as (t & r & l & rr & s2 & _ & _ & _ & _ & A & _ & _ & _ & _ & _ & E).
      pose proof (process_received_ok (if limit =? 0 then length (rx s2) else limit) s2) as P. rewrite <- E in P. destruct P as (_ & _ & _ & _ & _ & _ & _ & P).
      apply P. exact (adds_conserved _ _ _ _ A C).
    - intros E. injection E as <-. destruct (get k (socks s)); exact C.
    - intros E. injection E as <-. exact C.
    - intros E. injection E as <-. exact C.
    - intros E. injection E as <-. exact (process_unknown_conserved s C).
  Qed.
  Lemma run_conserved os : forall s s', conserved s -> run s os = Some s' -> conserved s'.
  Proof.
    unfold run. induction os as [|o os IH]; intros s s' C; cbn [Wire_Model.run]; [intros E; injection E as <-; exact C|].
    fold (step s o). destruct (step s o) as [s1|] eqn:E1; [|discriminate]. apply IH. exact (step_conserved _ _ _ C E1).
  Qed.
  Lemma init_conserved : conserved init.
  Proof. split; [constructor|cbn; lia]. Qed.

  (** *** senders whose messages are never put away: those that are known, and all in a stack that only listens *)
  Definition known (k : nat) (s : stack) : Prop := only_listener = true \/ In k (map fst (socks s)).
  Definition to (k : nat) (l : list (msg * nat)) : list (msg * nat) := of_sender k snd l.
  Definition ordered_for (k : nat) (s : stack) : Prop :=
    to k (seen s) = to k (map fst (out s)) ++ to k (rx s) /\ to k (stash s) = []
    /\ (forall x f, In (x, f) (out s) -> snd x = k -> f = if m_ping (fst x) then PingPong else Handled).
  Lemma to_app k a b : to k (a ++ b) = to k a ++ to k b.
  Proof. apply filter_app. Qed.
  Lemma to_other k x : snd x <> k -> to k [x] = [].
  Proof. intros N. unfold to, of_sender. cbn [filter]. destruct (Nat.eqb_spec (snd x) k); [contradiction|reflexivity]. Qed.

  Lemma process_one_ordered k x s : known k s -> to k (seen s) = to k (map fst (out s)) ++ to k (x :: rx s) -> to k (stash s) = [] ->
    (forall x f, In (x, f) (out s) -> snd x = k -> f = if m_ping (fst x) then PingPong else Handled) -> ordered_for k (process_one x s).
  Proof.
    intros K O St F. unfold ordered_for.
    assert (S1 : forall f, (snd x = k -> f = if m_ping (fst x) then PingPong else Handled) -> ordered_for k (settle x f s)).
    { intros f Hf. unfold ordered_for, settle. cbn [seen out rx stash]. rewrite map_app. cbn [map fst]. rewrite to_app, <- app_assoc, <- to_app. cbn [app]. split; [exact O|].
      split; [exact St|]. intros y g I E. apply in_app_iff in I as [I|[I|[]]]; [exact (F y g I E)|]. injection I as <- <-. exact (Hf E). }
    unfold process_one, Wire_Model.process_one. destruct (m_ping (fst x)) eqn:Pg; [apply S1; intros _; reflexivity|].
    destruct (negb only_listener && _) eqn:Un; [|apply S1; intros _; reflexivity].
    assert (Nk : snd x <> k).
    { intros E. apply andb_true_iff in Un as (U1 & U2). destruct K as [K|K]; [rewrite K in U1; discriminate|]. rewrite E in U2.
      destruct (get k (socks s)) eqn:G; [discriminate|]. apply get_none in G. exact (G K). }
    assert (O' : to k (seen s) = to k (map fst (out s)) ++ to k (rx s)).
    { rewrite O. change (x :: rx s) with ([x] ++ rx s). rewrite (to_app k [x]), (to_other k x Nk). reflexivity. }
    destruct (participating s); [apply S1; intros E; contradiction|]. destruct (stash_limit =? 0); [apply S1; intros E; contradiction|].
    destruct (stash s) as [|y rest] eqn:E.
    - unfold with_stash. cbn [seen out rx stash]. split; [exact O'|]. split; [apply to_other; exact Nk|exact F].
    - change (y :: rest) with ([y] ++ rest) in St. rewrite to_app in St. apply app_eq_nil in St as (St1 & St2).
      assert (Ny : snd y <> k). { intros Ey. unfold to, of_sender in St1. cbn [filter] in St1. rewrite Ey, Nat.eqb_refl in St1. discriminate. }
      destruct (stash_limit <=? length (y :: rest)).
      + unfold settle, with_stash. cbn [seen out rx stash]. rewrite map_app. cbn [map fst]. rewrite !to_app, St2, (to_other k x Nk), (to_other k y Ny), !app_nil_r.
        split; [exact O'|]. split; [reflexivity|]. intros z g I Ez. apply in_app_iff in I as [I|[I|[]]]; [exact (F z g I Ez)|]. injection I as <- <-. contradiction.
      + unfold with_stash. cbn [seen out rx stash]. change (y :: rest) with ([y] ++ rest). rewrite !to_app, St1, St2, (to_other k x Nk). split; [exact O'|]. split; [reflexivity|exact F].
  Qed.
  Lemma process_one_known k x s : known k s -> known k (process_one x s).
  Proof. unfold known. destruct (process_one_ok x s) as ((_ & F2 & _) & _). rewrite F2. auto. Qed.
  Lemma process_received_ordered k limit : forall s, known k s -> ordered_for k s -> ordered_for k (fst (process_received limit s)).
  Proof.
    unfold process_received. induction limit as [|limit IH]; intros s K O; cbn [Wire_Model.process_received]; [exact O|].
    destruct (rx s) as [|x rest] eqn:R; [exact O|]. fold process_one. specialize (IH (process_one x (with_rx rest s))).
    destruct (Wire_Model.process_received only_listener stash_limit limit (process_one x (with_rx rest s))) as (s', n). cbn [fst] in *. apply IH.
    - apply process_one_known. exact K.
    - destruct O as (O1 & O2 & O3). rewrite R in O1. apply process_one_ordered; [exact K|exact O1|exact O2|exact O3].
  Qed.
  Lemma adds_ordered k l r s s' : adds l r s s' -> ordered_for k s -> ordered_for k s'.
  Proof.
    intros (A1 & A2 & A3 & A4 & A5 & A6) (O1 & O2 & O3). unfold ordered_for. rewrite A1, A2, A4, A5, !to_app, O1, <- app_assoc. auto.
  Qed.
  Lemma step_ordered k s o s' : o <> Disconnect k -> known k s -> ordered_for k s -> step s o = Some s' -> known k s' /\ ordered_for k s'.
  Proof.
    intros Nd K O. unfold step. destruct o as [f|j f|limit q|j|j|b|]; cbn [Wire_Model.step].
    - intros E. injection E as <-. auto.
    - intros E. injection E as <-. destruct (get j (socks s)) eqn:G; [|auto]. split; [|exact O]. destruct K as [K|K]; [left; exact K|right]. cbn. apply set_keys. auto.
    - fold (service limit q s). destruct (service limit q s) as [(s1, n)|] eqn:E1; [|discriminate]. intros E. injection E as <-.
      destruct (service_some _ _ _ _ _ E1) as (t & r & l & rr & s2 & _ & _ & Ks & _ & A & _ & _ & _ & _ & K2 & E).
      split; [destruct K as [K|K]; [left; exact K|right; rewrite Ks; exact K]|].
      assert (s1 = fst (process_received (if limit =? 0 then length (rx s2) else limit) s2)) as -> by (rewrite <- E; reflexivity).
      apply process_received_ordered; [destruct K as [K|K]; [left; exact K|right; rewrite K2; exact K]|exact (adds_ordered _ _ _ _ _ A O)].
    - intros E. injection E as <-. destruct (get j (socks s)) eqn:G; [auto|]. split; [|exact O]. destruct K as [K|K]; [left; exact K|right]. cbn. apply set_keys. auto.
    - intros E. injection E as <-. split; [|exact O]. destruct K as [K|K]; [left; exact K|right]. cbn. apply in_map_iff in K as (y & Ey & Y). apply in_map_iff. exists y. split; [exact Ey|].
      apply filter_In. split; [exact Y|]. destruct (Nat.eqb_spec (fst y) j); [|reflexivity]. exfalso. apply Nd. congruence.
    - intros E. injection E as <-. auto.
    - intros E. injection E as <-. unfold process_unknown. set (s1 := with_stash [] (with_rx (rx s ++ stash s) s)).
      pose proof (process_received_ok (length (rx s1)) s1) as P. assert (O1 : ordered_for k s1).
      { destruct O as (O1 & O2 & O3). unfold ordered_for, s1. cbn [with_stash with_rx seen out rx stash]. rewrite to_app, O2, app_nil_r. auto. }
      pose proof (process_received_ordered k (length (rx s1)) s1 K O1) as Q. unfold process_received in P, Q.
      destruct (Wire_Model.process_received only_listener stash_limit (length (rx s1)) s1) as (s', n). cbn [fst] in *.
      destruct P as (_ & _ & _ & Sk & _). split; [unfold known; rewrite Sk; exact K|exact Q].
  Qed.
  Lemma run_ordered k os : ~ In (Disconnect k) os -> forall s s', known k s -> ordered_for k s -> run s os = Some s' -> ordered_for k s'.
  Proof.
    unfold run. induction os as [|o os IH]; intros Nd s s' K O; cbn [Wire_Model.run]; [intros E; injection E as <-; exact O|].
    fold (step s o). destruct (step s o) as [s1|] eqn:E1; [|discriminate]. destruct (step_ordered k s o s1) as (K1 & O1); [intros ->; apply Nd; left; reflexivity|exact K|exact O|exact E1|].
    apply IH; [intros I; apply Nd; right; exact I|exact K1|exact O1].
  Qed.

  (** *** a stack that only listens: from arrival to handler *)
  Lemma arrivals_app a b : arrivals (a ++ b) = arrivals a ++ arrivals b.
  Proof. apply flat_map_app. Qed.
  Definition all_ordered (s : stack) : Prop := seen s = map fst (out s) ++ rx s /\ stash s = [] /\ (forall x f, In (x, f) (out s) -> f = if m_ping (fst x) then PingPong else Handled).
  Definition no_sockets (os : list op) : Prop := forall k, ~ In (Connect k) os.

  Lemma process_received_all limit : only_listener = true -> forall s, all_ordered s -> all_ordered (fst (process_received limit s)).
  Proof.
    intros OL. unfold process_received. induction limit as [|limit IH]; intros s A; cbn [Wire_Model.process_received]; [exact A|].
    destruct (rx s) as [|x rest] eqn:R; [exact A|]. specialize (IH (process_one x (with_rx rest s))). fold process_one.
    destruct (Wire_Model.process_received only_listener stash_limit limit (process_one x (with_rx rest s))) as (s', n). cbn [fst] in *. apply IH. clear IH.
    destruct A as (A1 & A2 & A3). unfold process_one, Wire_Model.process_one. rewrite OL. cbn [negb andb].
    assert (S1 : all_ordered (settle x (if m_ping (fst x) then PingPong else Handled) (with_rx rest s))).
    { unfold all_ordered, settle, with_rx. cbn [seen out rx stash]. rewrite map_app, <- app_assoc, A1, R. cbn [map fst app]. split; [reflexivity|]. split; [exact A2|].
      intros y g I. apply in_app_iff in I as [I|[I|[]]]; [exact (A3 y g I)|]. injection I as <- <-. reflexivity. }
    destruct (m_ping (fst x)); exact S1.
  Qed.
  Lemma run_listens os : only_listener = true -> no_sockets os -> forall pre s s', socks s = [] -> all_ordered s -> acc pre = seen s ++ acc (listener s) -> run s os = Some s' ->
    socks s' = [] /\ all_ordered s' /\ acc (pre ++ arrivals os) = seen s' ++ acc (listener s').
  Proof.
    intros OL. unfold run. induction os as [|o os IH]; intros NS pre s s' S0 A E R; cbn [Wire_Model.run] in R.
    - injection R as <-. cbn [arrivals flat_map]. rewrite app_nil_r. auto.
    - fold (step s o) in R. destruct (step s o) as [s1|] eqn:E1; [|discriminate].
      assert (NS' : no_sockets os) by (intros k I; apply (NS k); right; exact I).
      assert (X : socks s1 = [] /\ all_ordered s1 /\ acc (pre ++ arrivals [o]) = seen s1 ++ acc (listener s1)).
      { unfold step in E1. destruct o as [f|j f|limit q|j|j|b|]; cbn [Wire_Model.step] in E1; cbn [arrivals flat_map app]; rewrite ?app_nil_r.
        - injection E1 as <-. split; [exact S0|]. split; [exact A|]. unfold with_listener. cbn [seen listener]. rewrite !acc_app, E, <- app_assoc. reflexivity.
        - injection E1 as <-. rewrite S0. cbn [get]. auto.
        - fold (service limit q s) in E1. destruct (service limit q s) as [(s2, n)|] eqn:E2; [|discriminate]. injection E1 as <-.
          destruct (service_some _ _ _ _ _ E2) as (t & r & l & rr & s3 & Lt & L2 & Ks & _ & Ad & Se & _ & Ll & _ & _ & E3).
          rewrite S0 in *. cbn [length map] in *. assert (l = []) as -> by (destruct l; [reflexivity|cbn in Ll; lia]).
          split; [destruct (socks s2); [reflexivity|discriminate]|]. destruct Ad as (D1 & D2 & D3 & D4 & D5 & D6). rewrite app_nil_r in D1, D2.
          split.
          + assert (s2 = fst (process_received (if limit =? 0 then length (rx s3) else limit) s3)) as -> by (rewrite <- E3; reflexivity).
            apply process_received_all; [exact OL|]. destruct A as (A1 & A2 & A3). unfold all_ordered. rewrite D1, D2, D4, D5, A1, <- app_assoc. auto.
          + rewrite E, Lt, acc_app, Se, D2, L2, app_assoc. reflexivity.
        - exfalso. apply (NS j). left. reflexivity.
        - injection E1 as <-. cbn. rewrite S0. auto.
        - injection E1 as <-. auto.
        - injection E1 as <-. unfold process_unknown. set (s2 := with_stash [] (with_rx (rx s ++ stash s) s)).
          assert (A2 : all_ordered s2). { destruct A as (A1 & A2 & A3). unfold all_ordered, s2. cbn [with_stash with_rx seen out rx stash]. rewrite A2, app_nil_r. auto. }
          pose proof (process_received_ok (length (rx s2)) s2) as P. pose proof (process_received_all (length (rx s2)) OL s2 A2) as Q. unfold process_received in P, Q.
          destruct (Wire_Model.process_received only_listener stash_limit (length (rx s2)) s2) as (s4, n). cbn [fst] in *. destruct P as (_ & _ & L & Sk & Se & _).
          split; [rewrite Sk; exact S0|]. split; [exact Q|]. rewrite Se, L. exact E. }
      destruct X as (X1 & X2 & X3). destruct (IH NS' _ s1 s' X1 X2 X3 R) as (Y1 & Y2 & Y3). split; [exact Y1|]. split; [exact Y2|].
      change (arrivals (o :: os)) with (arrivals ([o] ++ os)). rewrite arrivals_app, app_assoc. exact Y3.
  Qed.
End Proofs.
