(** C91: what a client keeps of its requests and of the answers of nodes. *)
From Coq Require Import List Arith NArith Bool Lia Permutation.
From Verif Require Import ClientStore_Model ClientStore_Spec ClientStore_Proofs.
Import ListNotations.

(** For all that is added of requests and answers, in any order: each request is told as it was, with those who acknowledged it, and
    with what each sender said last in refusing, rejecting and replying; other requests make no difference.  Missing: texts
    that hold line breaks, senders that hold the mark (refuted). *)
Theorem C91_kept_partial : forall breaks h idr id, usual breaks -> (forall e, In e h -> clean breaks (snd e)) ->
  let l := about idr id h in let fs := stored h in
  get_request breaks fs idr id = hd_error (requests l) /\ get_acks breaks fs idr id = acks l /\
  (has_request fs idr id = true <-> l <> []) /\
  (exists d, get_nacks breaks fs idr id = Some d /\ tells d (nacks l)) /\
  (exists d, get_rejects breaks fs idr id = Some d /\ tells d (rejects l)) /\
  (exists d, get_replies breaks fs idr id = Some d /\ tells d (replies l)).
Proof.
  intros breaks h idr id U C l fs. unfold fs.
  assert (CL : forall i, In i l -> clean breaks i).
  { intros i I. apply in_flat_map in I as (((j, n), x) & J & X). destruct (text_dec j idr); [|destruct X]. destruct (N.eq_dec n id); [|destruct X]. destruct X as [<-|[]]. apply (C _ J). }
  assert (BS : forall p f, (forall i, starts p (line_of i) = match f i with Some _ => true | None => false end) ->
    (forall i e, f i = Some e -> line_of i = p :: tilde :: fst e ++ tilde :: snd e) -> (forall i e, In i l -> f i = Some e -> ~ In tilde (fst e)) ->
    exists d, by_sender (lines_with breaks (stored h) idr id p) [] = Some d /\ tells d (flat_map (fun i => match f i with Some e => [e] | None => [] end) l)).
  { intros p f A B D. rewrite (lines_ok breaks U h idr id p C). fold l. rewrite (kind_lines p f l A B). eexists. split; [apply by_sender_ok|apply tells_fold].
    intros s v I. apply in_flat_map in I as (i & I & X). destruct (f i) as [e|] eqn:E; [|destruct X]. destruct X as [->|[]]. apply (D i (s, v) I E). }
  split; [|split; [|split; [|split; [|split]]]].
  - unfold get_request. rewrite (lines_ok breaks U h idr id 48 C). fold l. clear. induction l as [|i l IH]; [reflexivity|].
    destruct i; cbn [map filter line_of starts]; try reflexivity; exact IH.
  - unfold get_acks. rewrite (lines_ok breaks U h idr id 65 C). fold l. clear. induction l as [|i l IH]; [reflexivity|].
    destruct i; cbn [map filter line_of starts]; try exact IH. change (sender :: map (skipn 2) (filter (starts 65) (map line_of l)) = sender :: acks l). rewrite IH. reflexivity.
  - unfold has_request. rewrite stored_file. fold l. destruct l; split; congruence.
  - destruct (BS 78 (fun i => match i with Nack s r => Some (s, r) | _ => None end)) as (d & D1 & D2).
    + intros i. destruct i; reflexivity.
    + intros i e E. destruct i; try discriminate. injection E as <-. reflexivity.
    + intros i e I E. destruct i; try discriminate. injection E as <-. apply (CL _ I).
    + exists d. split; [exact D1|]. replace (nacks l) with (flat_map (fun i => match (match i with Nack s r => Some (s, r) | _ => None end) with Some e => [e] | None => [] end) l); [exact D2|].
      apply flat_map_ext. intros i. destruct i; reflexivity.
  - destruct (BS 74 (fun i => match i with Reject s r => Some (s, r) | _ => None end)) as (d & D1 & D2).
    + intros i. destruct i; reflexivity.
    + intros i e E. destruct i; try discriminate. injection E as <-. reflexivity.
    + intros i e I E. destruct i; try discriminate. injection E as <-. apply (CL _ I).
    + exists d. split; [exact D1|]. replace (rejects l) with (flat_map (fun i => match (match i with Reject s r => Some (s, r) | _ => None end) with Some e => [e] | None => [] end) l); [exact D2|].
      apply flat_map_ext. intros i. destruct i; reflexivity.
  - destruct (BS 82 (fun i => match i with Reply s r => Some (s, r) | _ => None end)) as (d & D1 & D2).
    + intros i. destruct i; reflexivity.
    + intros i e E. destruct i; try discriminate. injection E as <-. reflexivity.
    + intros i e I E. destruct i; try discriminate. injection E as <-. apply (CL _ I).
    + exists d. split; [exact D1|]. replace (replies l) with (flat_map (fun i => match (match i with Reply s r => Some (s, r) | _ => None end) with Some e => [e] | None => [] end) l); [exact D2|].
      apply flat_map_ext. intros i. destruct i; reflexivity.
Qed.
(** breaks of text files, and some answers *)
Definition nl (c : nat) : bool := (c =? 10) || (c =? 13).
Definition hist : history :=
  [([97], 1%N, Request [123]); ([97], 1%N, Ack [1]); ([98], 1%N, Request [5]); ([97], 1%N, Ack [2]); ([97], 12%N, Request [7]);
   ([97], 1%N, Reply [1] [50; 126; 51]); ([97], 1%N, Reply [2] [50]); ([97], 1%N, Reply [1] [52]); ([97], 12%N, Nack [3] [77]); ([97], 1%N, Reject [4] [])].
Example C91_kept_example : usual nl /\ (forall e, In e hist -> clean nl (snd e)) /\ get_acks nl (stored hist) [97] 1 = [[1]; [2]] /\
  get_replies nl (stored hist) [97] 1 = Some [([1], [52]); ([2], [50])] /\ get_request nl (stored hist) [97] 12 = Some [7] /\ has_request (stored hist) [98] 12 = false.
Proof.
  split; [split; [reflexivity|intros c H; cbn in H; repeat (destruct H as [<-|H]; [reflexivity|]); destruct H]|].
  split; [|repeat split; vm_compute; reflexivity].
  assert (O : forall t, forallb (fun c => negb (nl c)) t = true -> one_line nl t).
  { intros t H c I. rewrite forallb_forall in H. specialize (H c I). apply negb_true_iff in H. exact H. }
  intros e H. cbn in H. repeat (destruct H as [<-|H]; [cbn [snd clean]; repeat split; try (apply O; reflexivity); try (cbn; intros X; repeat (destruct X as [X|X]; [discriminate X|]); destruct X)|]). destruct H.
Qed.
(** adding a reply tells from how many senders there is one *)
Theorem C91_count_partial : forall breaks h idr id s r, usual breaks -> (forall e, In e h -> clean breaks (snd e)) -> clean breaks (Reply s r) ->
  snd (add_reply breaks (stored h) idr id s r) = Some (length (nodup text_dec (map fst (replies (about idr id h) ++ [(s, r)])))).
Proof.
  intros breaks h idr id s r U C CR. unfold add_reply. cbn [snd]. rewrite <- stored_snoc.
  destruct (C91_kept_partial breaks (h ++ [(idr, id, Reply s r)]) idr id U) as (_ & _ & _ & _ & _ & d & D & N & T).
  { intros e I. apply in_app_iff in I as [I|[<-|[]]]; [apply C, I|exact CR]. }
  rewrite D. cbn. f_equal. rewrite about_app in T. cbn [about flat_map] in T. destruct (text_dec idr idr); [|congruence]. destruct (N.eq_dec id id); [|congruence].
  rewrite app_nil_r in T. unfold replies in T. rewrite flat_map_app in T. cbn [flat_map app] in T. fold (replies (about idr id h)) in T.
  rewrite <- (map_length fst d). apply Permutation_length, NoDup_Permutation; [exact N|apply NoDup_nodup|]. intros x. rewrite nodup_In, <- (last_some x (replies (about idr id h) ++ [(s, r)])). split.
  - intros I. apply in_map_iff in I as ((x', v) & <- & I). exists v. apply T, I.
  - intros (v & V). apply T in V. apply (in_map fst) in V. exact V.
Qed.
Example C91_count_example : snd (add_reply nl (stored hist) [97] 1 [2] [52]) = Some 2 /\ snd (add_reply nl (stored hist) [97] 1 [9] [52]) = Some 3.
Proof. split; vm_compute; reflexivity. Qed.
(** Refuted: what a node says counts as its own.  One refusal whose reason goes on in a second line is the same, in the store, as that
    refusal and any reply of any other node *)
Theorem C91_forged_refuted : forall h idr id s reason victim reply,
  add_item (stored h) idr id (Nack s (reason ++ newline :: line_of (Reply victim reply))) =
  stored (h ++ [(idr, id, Nack s reason); (idr, id, Reply victim reply)]).
Proof.
  intros h idr id s reason v r. change [(idr, id, Nack s reason); (idr, id, Reply v r)] with ([(idr, id, Nack s reason)] ++ [(idr, id, Reply v r)]).
  rewrite app_assoc, !stored_snoc. unfold add_item. generalize (stored h) as fs. set (k := create_key idr id).
  assert (L : line_of (Nack s (reason ++ newline :: line_of (Reply v r))) ++ [newline] = (line_of (Nack s reason) ++ [newline]) ++ line_of (Reply v r) ++ [newline]).
  { cbn [line_of app]. do 2 f_equal. repeat (rewrite <- app_assoc; cbn [app]). reflexivity. }
  induction fs as [|(k0, t) fs IH]; cbn [append].
  - destruct (text_eqb_spec k k) as [_|N]; [|congruence]. rewrite L. reflexivity.
  - destruct (text_eqb k k0) eqn:E; cbn [append]; rewrite E.
    + rewrite L, <- !app_assoc. reflexivity.
    + f_equal. exact IH.
Qed.
Example C91_forged_example : get_replies nl (add_item [] [97] 1 (Nack [1] ([66; 10] ++ line_of (Reply [2] [50])))) [97] 1 = Some [([2], [50])].
Proof. reflexivity. Qed.
(** Refuted: a sender whose name holds the mark is taken for another *)
Theorem C91_sender_refuted : forall breaks idr id s s' r, usual breaks -> one_line breaks s -> one_line breaks s' -> one_line breaks r -> ~ In tilde s ->
  get_replies breaks (stored [(idr, id, Reply (s ++ tilde :: s') r)]) idr id = Some [(s, s' ++ tilde :: r)].
Proof.
  intros breaks idr id s s' r U A B C N.
  assert (E : stored [(idr, id, Reply (s ++ tilde :: s') r)] = stored [(idr, id, Reply s (s' ++ tilde :: r))]).
  { cbn [stored fold_left add_item append line_of]. unfold add_item. cbn [append line_of]. rewrite <- !app_assoc. cbn [app]. repeat f_equal. }
  rewrite E. assert (T : breaks tilde = false) by (apply U; left; reflexivity).
  unfold get_replies. rewrite (lines_ok breaks U).
  - cbn [about flat_map]. destruct (text_dec idr idr); [|congruence]. destruct (N.eq_dec id id); [|congruence].
    cbn [app map line_of filter]. change (starts 82 (82 :: tilde :: s ++ tilde :: s' ++ tilde :: r)) with true. cbn [by_sender skipn]. rewrite cut_ok by exact N. reflexivity.
  - intros e0 [<-|[]]. cbn [snd clean]. split; [exact A|]. split; [|exact N]. intros c I. apply in_app_iff in I as [I|[<-|I]]; auto.
Qed.
(** Refuted: all answers are told.  Once a node has refused, no rejection is *)
Theorem C91_rejects_refuted : exists h, get_rejects nl (stored h) [97] 1 = Some [([4], [9])] /\ exists rs es, get_all_replies nl (stored h) [97] 1 = Some (rs, es) /\ ~ In [4] (map fst es).
Proof.
  exists [([97], 1%N, Reject [4] [9]); ([97], 1%N, Nack [3] [8])]. split; [vm_compute; reflexivity|]. exists [], [([3], [8])]. split; [vm_compute; reflexivity|].
  cbn. intros [H|[]]. discriminate H.
Qed.
(** The last number of a request is the greatest there was, for identifiers without commas *)
Theorem C91_last_partial : forall h, (forall i n x, In (i, n, x) h -> ~ In comma i) ->
  last_req_id (stored h) = Some (fold_right N.max 0%N (map (fun e => snd (fst e)) h)).
Proof.
  intros h. assert (M : forall l a, fold_right N.max a l = N.max a (fold_right N.max 0%N l)).
  { induction l as [|x l IH]; intros a; cbn [fold_right]; [lia|]. rewrite IH. lia. }
  induction h as [|((i, n), x) h IH] using rev_ind; intros C; [reflexivity|]. rewrite stored_snoc. unfold add_item. rewrite last_append by (apply (C i n x); apply in_app_iff; right; left; reflexivity).
  rewrite IH by (intros j m y J; apply (C j m y); apply in_app_iff; left; exact J). cbn [option_map]. rewrite map_app, fold_right_app. cbn [map fold_right fst snd]. rewrite N.max_0_r, (M _ n). reflexivity.
Qed.
Example C91_last_example : last_req_id (stored hist) = Some 12%N.
Proof. vm_compute. reflexivity. Qed.
Theorem C91_comma_refuted : last_req_id (stored [([97; 44; 98], 1%N, Request [])]) = None /\ last_req_id (stored [([97; 44; 57], 1%N, Request [])]) = Some 9%N.
Proof. split; vm_compute; reflexivity. Qed.
(** The log of transactions knows those that were added, as long as all identifiers have the same length *)
Definition logged (h : list (text * N)) : list text := fold_left (fun l e => log_append l (fst e) (snd e)) h [].
Theorem C91_log_partial : forall h len idr id, (forall i n, In (i, n) h -> length i = len) -> length idr = len ->
  (has_txn (logged h) idr id = true <-> In (idr, id) h).
Proof.
  intros h len idr id L LI. unfold has_txn. rewrite existsb_exists.
  assert (K : forall k, In k (logged h) <-> exists i n, In (i, n) h /\ k = txn_key i n).
  { clear. unfold logged. induction h as [|(i, n) h IH] using rev_ind; intros k; [split; [intros []|intros (i & n & [] & _)]|]. rewrite fold_left_app. cbn [fold_left fst snd]. unfold log_append.
    destruct (existsb _ _) eqn:E.
    - rewrite IH. split; [intros (j & m & A & B); exists j, m; split; [apply in_app_iff; left; exact A|exact B]|]. intros (j & m & A & B). apply in_app_iff in A as [A|[A|[]]]; [eauto|].
      injection A as <- <-. apply existsb_exists in E as (k' & K & Q). destruct (text_eqb_spec (txn_key i n) k') as [<-|]; [|discriminate]. subst k. apply IH, K.
    - cbn [In]. rewrite IH. split.
      + intros [<-|(j & m & A & B)]; [exists i, n; split; [apply in_app_iff; right; left; reflexivity|reflexivity]|exists j, m; split; [apply in_app_iff; left; exact A|exact B]].
      + intros (j & m & A & B). apply in_app_iff in A as [A|[A|[]]]; [right; eauto|]. injection A as <- <-. left. congruence. }
  split.
  - intros (k & I & E). destruct (text_eqb_spec (txn_key idr id) k) as [<-|]; [|discriminate]. apply K in I as (i & n & I & Q). unfold txn_key in Q.
    assert (P : idr = i /\ str id = str n).
    { specialize (L i n I). clear - Q L LI. rewrite <- L in LI. clear L. revert i Q LI. induction idr as [|c t IH]; intros [|c' i] Q LI; cbn in *; try discriminate; [auto|].
      injection Q as <- Q. injection LI as LI. destruct (IH i Q LI) as (-> & X). auto. }
    destruct P as (-> & P). apply str_inj in P. subst n. exact I.
  - intros I. exists (txn_key idr id). split; [apply K; eauto|]. destruct (text_eqb_spec (txn_key idr id) (txn_key idr id)); congruence.
Qed.
Theorem C91_log_refuted : has_txn (logged [([97], 12%N)]) [97; 49] 2 = true.
Proof. reflexivity. Qed.
Example C91_log_example : has_txn (logged [([97], 12%N); ([98], 1%N)]) [98] 1 = true /\ has_txn (logged [([97], 12%N); ([98], 1%N)]) [98] 12 = false.
Proof. split; vm_compute; reflexivity. Qed.

Print Assumptions C91_kept_partial.
Print Assumptions C91_count_partial.
Print Assumptions C91_forged_refuted.
Print Assumptions C91_sender_refuted.
Print Assumptions C91_rejects_refuted.
Print Assumptions C91_last_partial.
Print Assumptions C91_comma_refuted.
Print Assumptions C91_log_partial.
Print Assumptions C91_log_refuted.
