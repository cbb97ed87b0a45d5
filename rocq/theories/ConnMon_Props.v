(** C75: the watch over the connection to the primary. *)
From Coq Require Import List Arith Bool Lia.
From Verif Require Import Base Dict ConnMon_Model ConnMon_Spec ConnMon_Proofs.
Import ListNotations.

Definition c0 : config := Config true 0 6 5 3.

(** The node votes because of its primary only while it takes the primary for disconnected, and not before the
    tolerated time is over since the start, since it found some primary disconnected or since it woke up (and
    found none connected after that); the first time only if it is ready and synchronised.  Partial: that primary need not be the present one, nor the time be over
    for the present one (see the refutations), and no primary is selected within a vote. *)
Theorem C75_vote_partial c t0 h e u : is_master c = true -> 0 < tolerate c -> 0 < again c ->
  timely t0 (e :: h) -> Forall calm (e :: h) -> In u (out (run c t0 (e :: h))) ->
  u = time e /\ down c h /\ (exists d, deadline c t0 h d /\ d <= u) /\
  exists r y x, e = Serve u r y x /\ (r && y = true \/ exists u', voted c t0 h u').
Proof. apply safe. Qed.
Print Assumptions C75_vote_partial.

(** Once such a time is over the node has voted, and votes again and again, less than the interval apart, each
    time the timer is served; provided it is ready and synchronised now, and was at each turn of the last
    [tolerate]. *)
Theorem C75_votes_partial c t0 h t d : is_master c = true -> 0 < tolerate c -> 0 < again c ->
  timely t0 (Serve t true true None :: h) -> Forall calm h -> deadline c t0 h d -> d <= t ->
  (forall u r s x, In (Serve u r s x) h -> r && s = false -> u + tolerate c <= t) ->
  exists u, voted c t0 (Serve t true true None :: h) u /\ u <= t /\ t < u + again c.
Proof. apply live. Qed.
Print Assumptions C75_votes_partial.

(** The node is told that the primary is disconnected, at once and each time it is found so, and never else; of
    the master and of the backups. *)
Theorem C75_told_partial c t0 h e : Forall calm (e :: h) ->
  told (run c t0 (e :: h)) = [time e] /\ downs c h e \/ told (run c t0 (e :: h)) = [] /\ ~ downs c h e.
Proof. apply told_spec. Qed.
Print Assumptions C75_told_partial.

(** The time kept for the primary, by which backups are removed (C74), is the one it was last found disconnected. *)
Theorem C75_since_partial c t0 h d : Forall calm h -> (lost (run c t0 h) = Some d <-> since c t0 h d).
Proof. apply since_spec. Qed.
Print Assumptions C75_since_partial.

(** primary 1 is selected while not connected; the check at 8 finds the node not ready *)
Definition h1 := [Serve 16 true true None; Serve 13 true true None; Serve 8 true false None; Disc 4 2; Select 3 1 [2; 3] [0; 1; 2; 3]; Conn 2 2].
Example C75_vote_ex : timely 0 h1 /\ Forall calm h1 /\ out (run c0 0 h1) = [16] /\ voted c0 0 h1 13 /\
  deadline c0 0 (tl h1) 8 /\ told (run c0 0 (tl (tl (tl (tl h1))))) = [3] /\ lost (run c0 0 h1) = Some 3.
Proof.
  split; [cbn; lia|]. split; [repeat constructor|]. split; [reflexivity|]. split; [apply voted_before; [apply voted_now; left; reflexivity|intros []]|].
  split; [|split; reflexivity]. repeat (apply dl_still; [|try (intros []); cbn; intuition congruence]). apply (dl_event c0 0 [Conn 2 2] (Select 3 1 [2; 3] [0; 1; 2; 3])). unfold downs, there. cbn. intuition congruence.
Qed.
Example C75_votes_ex : exists u, voted c0 0 (Serve 15 true true None :: tl h1) u /\ u <= 15 /\ 15 < u + 3.
Proof.
  apply (C75_votes_partial c0 0 (tl h1) 15 8); try reflexivity; try (cbn; lia); [repeat constructor| |].
  - apply C75_vote_ex.
  - intros u r s x H E. cbn in H. destruct H as [H|[H|[H|[H|[H|[]]]]]]; try discriminate; injection H as <- <- <- <-; [discriminate|cbn; lia].
Qed.

(** *** Refutations *)
(** The node votes against a primary it is connected to: the one it lost is primary no more, but until the new
    view is accepted the watch is not told. *)
Theorem C75_innocent_refuted : exists c t0 h t p conns,
  is_master c = true /\ timely t0 (Serve t true true None :: h) /\ Forall calm (Serve t true true None :: h) /\
  In p conns /\ In (Select 1 1 conns [0; 1; 2]) h /\ primary h = Some p /\
  (forall x, ~ In (Disc x p) h) /\ out (run c t0 (Serve t true true None :: h)) = [t].
Proof.
  exists c0, 0, [NewPrimary 10 (Some 2); Disc 9 1; Select 1 1 [1; 2] [0; 1; 2]], 14, 2, [1; 2].
  split; [reflexivity|]. split; [cbn; lia|]. split; [repeat constructor|]. split; [cbn; tauto|]. split; [cbn; tauto|]. split; [reflexivity|].
  split; [intros x H; cbn in H; destruct H as [H|[H|[H|[]]]]; discriminate|]. reflexivity.
Qed.
Print Assumptions C75_innocent_refuted.

(** Primary [p] was connected all the time until it was lost; yet the node votes before the tolerated time is
    over, for the check of the one before it is pending still. *)
Theorem C75_early_refuted : exists c t0 h t u p,
  is_master c = true /\ timely t0 (Serve t true true None :: h) /\ Forall calm (Serve t true true None :: h) /\
  primary h = Some p /\ In (Disc u p) h /\ (forall x, In (Disc x p) h -> x = u) /\ (forall x conns vals, ~ In (Select x p conns vals) h) /\
  t < u + tolerate c /\ out (run c t0 (Serve t true true None :: h)) = [t].
Proof.
  exists c0, 0, [Disc 13 2; NewPrimary 10 (Some 2); Disc 9 1; Select 1 1 [1; 2] [0; 1; 2]], 14, 13, 2.
  split; [reflexivity|]. split; [cbn; lia|]. split; [repeat constructor|]. split; [reflexivity|]. split; [cbn; tauto|].
  split; [intros x H; cbn in H; destruct H as [H|[H|[H|[H|[]]]]]; congruence|].
  split; [intros x a b H; cbn in H; destruct H as [H|[H|[H|[H|[]]]]]; discriminate|]. split; [cbn; lia|]. reflexivity.
Qed.
Print Assumptions C75_early_refuted.

(** The view change completes within the vote, with a primary that is connected; the repeating timer is started
    (at the first vote) all the same, and a primary lost later is voted against before the tolerated time is over;
    at a later vote the stopped timer leaves an event behind. *)
Theorem C75_restarted_refuted :
  (exists c t0 t1 p conns vals u t,
     is_master c = true /\ timely t0 [Serve t true true None; Disc u p; Serve t1 true true (Some (p, conns, vals))] /\
     In p conns /\ t < u + tolerate c /\
     out (run c t0 [Serve t true true None; Disc u p; Serve t1 true true (Some (p, conns, vals))]) = [t]) /\
  (exists c t0 t1 t2 p conns vals u t,
     is_master c = true /\ timely t0 [Serve t true true None; Disc u p; Serve t2 true true (Some (p, conns, vals)); Serve t1 true true None] /\
     t1 < t2 /\ In p conns /\ t < u + tolerate c /\
     out (run c t0 [Disc u p; Serve t2 true true (Some (p, conns, vals)); Serve t1 true true None]) = [] /\
     In (t2 + again c, Tick) (queue (run c t0 [Serve t2 true true (Some (p, conns, vals)); Serve t1 true true None])) /\
     on (run c t0 [Serve t2 true true (Some (p, conns, vals)); Serve t1 true true None]) = false).
Proof.
  split.
  - exists c0, 0, 6, 2, [1; 2], [0; 1; 2], 7, 9. split; [reflexivity|]. split; [cbn; lia|]. split; [cbn; tauto|]. split; [cbn; lia|]. reflexivity.
  - exists c0, 0, 6, 9, 2, [1; 2], [0; 1; 2], 10, 12. split; [reflexivity|]. split; [cbn; lia|]. split; [lia|]. split; [cbn; tauto|]. split; [cbn; lia|].
    split; [reflexivity|]. split; [left; reflexivity|reflexivity].
Qed.
Print Assumptions C75_restarted_refuted.
