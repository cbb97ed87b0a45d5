(** C81: from the sockets to the handler: what is read within the quota, in which order it is handled, and what is lost. *)
From Coq Require Import List Arith Bool Lia Permutation.
Import ListNotations.
From Verif Require Import Dict Wire_Model Wire_Spec Wire_Proofs.

Section C81.
  Variable key_utf8 : nat -> bool.
  Variable only_listener : bool.
  Variables len_limit stash_limit sender_quota : nat.
  Let service := service key_utf8 only_listener len_limit stash_limit sender_quota.
  Let run := run key_utf8 only_listener len_limit stash_limit sender_quota init.

  (** reading from the listener takes frames from the front; stops only when nothing waits or the quota of messages or bytes is used
      up; exceeds the number of messages never and the bytes only by the last message; accepts the fine messages, in order, reports the
      others of senders with a proper key *)
  Theorem C81_read q s s' n : from_listener key_utf8 len_limit q 0 0 (listener s) s = Some (s', n) ->
    exists taken rest, listener s = taken ++ rest /\ listener s' = rest
      /\ rx s' = rx s ++ accepted key_utf8 len_limit taken /\ rejected s' = rejected s ++ reports key_utf8 len_limit taken
      /\ n = length (reals taken)
      /\ (rest = [] \/ q_count q <= n \/ q_size q <= bytes (reals taken))
      /\ (reals taken <> [] -> n <= q_count q /\ bytes (removelast (reals taken)) < q_size q).
  Proof.
    intros E. destruct (listener_full key_utf8 only_listener len_limit stash_limit sender_quota _ _ _ _ _ _ _ E) as (taken & rest & E1 & E2 & _ & (A1 & _ & A3 & _) & E4 & E5 & E6).
    exists taken, rest. auto 10.
  Qed.

  (** one call of [service]: at most the quota of the listener and of each known sender is accepted; it returns the number of messages
      it took out of the queue, which are as many as allowed; without limit, all *)
  Theorem C81_service limit q s s' n : service limit q s = Some (s', n) ->
    exists new, seen s' = seen s ++ new /\ length new <= q_count q + length (socks s) * sender_quota
      /\ n = Nat.min (if limit =? 0 then length (rx s ++ new) else limit) (length (rx s ++ new))
      /\ rx s' = skipn n (rx s ++ new).
  Proof.
    intros E. destruct (service_some _ _ _ _ _ _ _ _ _ _ E) as (taken & rest & l & r & s2 & _ & _ & _ & Cn & (A1 & A2 & _) & Se & _ & Ll & _ & _ & Ep).
    exists (accepted key_utf8 len_limit taken ++ l). split; [congruence|]. split.
    - rewrite app_length. assert (length (accepted key_utf8 len_limit taken) <= length (reals taken)); [|lia].
      unfold accepted. generalize (reals taken). intros u. induction u as [|x u IH]; cbn; [lia|]. destruct (fine _ _ x); cbn; lia.
    - pose proof (process_received_ok key_utf8 only_listener len_limit stash_limit sender_quota (if limit =? 0 then length (rx s2) else limit) s2) as P. rewrite <- Ep in P.
      destruct P as (P1 & P2 & _). rewrite <- A1. split; [exact P1|]. rewrite P2, P1.
      destruct (Nat.le_gt_cases (if limit =? 0 then length (rx s2) else limit) (length (rx s2))) as [L|L].
      + rewrite Nat.min_l by exact L. reflexivity.
      + rewrite Nat.min_r by lia. rewrite !skipn_all2; [reflexivity|lia|lia].
  Qed.

  (** nothing fails as long as every message has the expected number of parts *)
  Theorem C81_no_exception_partial limit q s : (forall k, ~ In (Parts k []) (listener s)) ->
    (forall k fs k' ps, get k (socks s) = Some fs -> In (Parts k' ps) fs -> length ps = 1) -> service limit q s <> None.
  Proof.
    intros NL NS. apply service_ok; [exact NL|]. intros k fs G. apply Forall_forall. intros f I. destruct f as [k' ps|]; [|exact Logic.I]. exact (NS k fs k' ps G I).
  Qed.

  (** every accepted message is, exactly once, taken out, put away or still in the queue *)
  Theorem C81_conserved os s : run os = Some s ->
    Permutation (seen s) (map fst (out s) ++ stash s ++ rx s) /\ length (stash s) <= stash_limit.
  Proof. exact (run_conserved _ _ _ _ _ os init s (init_conserved _)). Qed.

  (** the messages of a sender that stays known are handled (or answered, if pings) in the order in which they were accepted, none
      is lost *)
  Theorem C81_known k os s : ~ In (Disconnect k) os -> run (Connect k :: os) = Some s ->
    of_sender k snd (seen s) = of_sender k snd (map fst (out s)) ++ of_sender k snd (rx s)
    /\ of_sender k snd (stash s) = []
    /\ forall x f, In (x, f) (out s) -> snd x = k -> f = if m_ping (fst x) then PingPong else Handled.
  Proof.
    intros Nd R. refine (run_ordered key_utf8 only_listener len_limit stash_limit sender_quota k os Nd _ s _ _ R).
    - right. left. reflexivity.
    - split; [reflexivity|]. split; [reflexivity|]. intros x f [].
  Qed.
End C81.

(** the stack for clients only listens: what has arrived is, in order, what was handled (or answered), what is queued and what waits *)
Theorem C81_clients key_utf8 len_limit stash_limit sender_quota os s : (forall k, ~ In (Connect k) os) ->
  run key_utf8 true len_limit stash_limit sender_quota init os = Some s ->
  accepted key_utf8 len_limit (arrivals os) = map fst (out s) ++ rx s ++ accepted key_utf8 len_limit (listener s)
  /\ stash s = [] /\ forall x f, In (x, f) (out s) -> f = if m_ping (fst x) then PingPong else Handled.
Proof.
  intros NC R. destruct (run_listens key_utf8 true len_limit stash_limit sender_quota os eq_refl NC [] init s eq_refl) as (_ & (A1 & A2 & A3) & E); [|reflexivity|exact R|].
  - split; [reflexivity|]. split; [reflexivity|]. intros x f [].
  - split; [|split; [exact A2|exact A3]]. cbn [app] in E. rewrite E, A1, <- app_assoc. reflexivity.
Qed.

(** while too many requests wait to be ordered, nothing is read from clients *)
Theorem C81_overflow key_utf8 len_limit stash_limit sender_quota max_queue q waiting limit s s' n :
  max_queue <= waiting -> socks s = [] ->
  service key_utf8 true len_limit stash_limit sender_quota limit (client_quota max_queue q waiting) s = Some (s', n) ->
  listener s' = listener s /\ seen s' = seen s /\ rejected s' = rejected s.
Proof.
  intros L Sk E. unfold client_quota in E. apply Nat.leb_le in L. rewrite L in E.
  destruct (service_some _ _ _ _ _ _ _ _ _ _ E) as (taken & rest & l & r & s2 & E1 & E2 & _ & Cn & (A1 & A2 & A3 & _) & Se & Re & Ll & _).
  unfold service in E. assert (E0 : from_listener key_utf8 len_limit {| q_count := 0; q_size := 0 |} 0 0 (listener s) s = Some (with_listener (listener s) s, 0)) by (destruct (listener s) as [|[]]; reflexivity).
  rewrite E0 in E. change (socks (with_listener (listener s) s)) with (socks s) in E. rewrite Sk in E. cbn [map from_sockets] in E.
  pose proof (process_received_ok key_utf8 true len_limit stash_limit sender_quota (if limit =? 0 then length (rx (with_listener (listener s) s)) else limit) (with_listener (listener s) s)) as P.
  injection E as E. change (rx (with_listener (listener s) s)) with (rx s) in P. rewrite E in P. destruct P as (_ & _ & P1 & _ & P2 & _ & P3 & _). auto.
Qed.
(** otherwise the quota is the full one *)
Theorem C81_no_overflow max_queue q waiting : waiting < max_queue -> client_quota max_queue q waiting = q.
Proof. intros L. unfold client_quota. apply Nat.leb_gt in L. rewrite L. reflexivity. Qed.

(** *** what does not hold *)
Definition text (i : nat) : msg := {| m_id := i; m_len := 3; m_utf8 := true; m_ping := false |}.
Definition empty : msg := {| m_id := 0; m_len := 0; m_utf8 := true; m_ping := false |}.
Definition q1 : quota := {| q_count := 1; q_size := 5 |}.

(** a message of two parts from a known node raises an error that nobody catches *)
Theorem C81_two_parts_refuted : exists s, run (fun _ => true) false 10 2 5 init [Connect 7; ArriveFrom 7 (Parts 7 [text 1; text 2])] = Some s
  /\ service (fun _ => true) false 10 2 5 0 q1 s = None.
Proof. eexists. split; [vm_compute; reflexivity|]. vm_compute. reflexivity. Qed.
(** frames without content are not counted: one call reads any number of them, whatever the quota *)
Theorem C81_uncounted_refuted n : from_listener (fun _ => true) 10 q1 0 0 (repeat (Parts 7 [empty]) n) init = Some (init, 0)
  /\ from_listener (fun _ => true) 10 q1 0 0 (repeat (Parts 7 [text 1; text 2]) n) init = Some (init, 0).
Proof. induction n as [|n (IH1 & IH2)]; [split; reflexivity|]. split; [exact IH1|exact IH2]. Qed.
(** a sender that becomes known: its later message is handled before the earlier one, which was put away *)
Theorem C81_order_refuted : exists os s, run (fun _ => true) false 10 2 5 init os = Some s
  /\ arrivals os = [Parts 7 [text 1]; Parts 7 [text 2]] /\ out s = [((text 2, 7), Handled); ((text 1, 7), Handled)].
Proof.
  exists [Arrive (Parts 7 [text 1]); Service 0 q1; Connect 7; Arrive (Parts 7 [text 2]); Service 0 q1; Mode true; ProcessUnknown].
  eexists. split; [vm_compute; reflexivity|]. split; vm_compute; reflexivity.
Qed.
(** messages of a sender that is not known yet are lost when the node already participates, and when more come than are put away *)
Theorem C81_unknown_refuted : exists os s, run (fun _ => true) false 10 1 5 init os = Some s
  /\ out s = [((text 1, 7), Dropped); ((text 3, 7), Unknown); ((text 4, 7), Handled)] /\ stash s = [(text 2, 7)].
Proof.
  exists [Arrive (Parts 7 [text 1]); Service 0 q1; Arrive (Parts 7 [text 2]); Service 0 q1; Mode true; Arrive (Parts 7 [text 3]); Service 0 q1;
          Connect 7; Arrive (Parts 7 [text 4]); Service 0 q1].
  eexists. split; [vm_compute; reflexivity|]. split; vm_compute; reflexivity.
Qed.

(** *** concrete cases *)
Definition long (i : nat) : msg := {| m_id := i; m_len := 12; m_utf8 := true; m_ping := false |}.
Definition ping : msg := {| m_id := 9; m_len := 2; m_utf8 := true; m_ping := true |}.
Definition q3 : quota := {| q_count := 3; q_size := 16 |}.
Definition client_ops : list op :=
  [Arrive (Parts 7 [text 1]); Arrive Fail; Arrive (Parts 8 [long 2]); Arrive (Parts 7 [empty]); Arrive (Parts 7 [ping]); Arrive (Parts 8 [text 3]); Service 1 q3; Service 1 q3].
Example C81_case : exists s, run (fun _ => true) true 10 2 5 init client_ops = Some s /\ (forall k, ~ In (Connect k) client_ops)
  /\ out s = [((text 1, 7), Handled); ((ping, 7), PingPong)] /\ rx s = [(text 3, 8)] /\ rejected s = [(8, 2)].
Proof.
  eexists. split; [vm_compute; reflexivity|]. split; [cbn; intuition discriminate|]. repeat split; vm_compute; reflexivity.
Qed.
Example C81_case_known : exists s, run (fun _ => true) false 10 2 5 init
    [Connect 7; ArriveFrom 7 (Parts 7 [text 1]); Arrive (Parts 8 [text 2]); Arrive (Parts 7 [text 3]); Service 0 q3] = Some s
  /\ of_sender 7 snd (map fst (out s)) = [(text 3, 7); (text 1, 7)] /\ stash s = [(text 2, 8)].
Proof. eexists. split; [vm_compute; reflexivity|]. split; vm_compute; reflexivity. Qed.
Example C81_case_overflow : exists s s' n, run (fun _ => true) true 10 2 5 init [Arrive (Parts 7 [text 1])] = Some s /\ socks s = []
  /\ service (fun _ => true) true 10 2 5 0 (client_quota 4 q3 4) s = Some (s', n) /\ listener s' = [Parts 7 [text 1]].
Proof. eexists. eexists. eexists. split; [vm_compute; reflexivity|]. split; [reflexivity|]. split; vm_compute; reflexivity. Qed.

Print Assumptions C81_read.
Print Assumptions C81_service.
Print Assumptions C81_no_exception_partial.
Print Assumptions C81_conserved.
Print Assumptions C81_known.
Print Assumptions C81_clients.
Print Assumptions C81_overflow.
Print Assumptions C81_no_overflow.
Print Assumptions C81_two_parts_refuted.
Print Assumptions C81_uncounted_refuted.
Print Assumptions C81_order_refuted.
Print Assumptions C81_unknown_refuted.
