(** Proofs about the intake of messages. *)
From Coq Require Import Ascii String List Arith Bool ZArith Lia.
From Verif Require Import Schema_Model Schema_Spec Schema_Proofs Intake_Model Intake_Spec.
Import ListNotations.

Lemma is_str_spec v x : is_str v x = true <-> v = VStr (s x).
Proof. unfold is_str. destruct v; try (split; discriminate). rewrite str_eqb_eq. split; congruence. Qed.
Lemma get_truthy k d : truthy (get_ k d) = true <-> non_empty k d.
Proof.
  unfold get_, get, non_empty. destruct (find (s k) d) as [v|].
  - split; [intros T; exists v; auto|intros (w & E & T); injection E as ->; exact T].
  - split; [discriminate|intros (w & E & _); discriminate].
Qed.
Lemma get_falsy k d : truthy (get_ k d) = false <-> ~ non_empty k d.
Proof. rewrite <- get_truthy. destruct (truthy (get_ k d)); split; congruence. Qed.
Lemma prefix_spec p : forall x, prefix_of p x = true <-> exists b, x = p ++ b.
Proof.
  induction p as [|a p IH]; intros x; cbn [prefix_of app].
  - split; [intros _; exists x; reflexivity|auto].
  - destruct x as [|c x]; [split; [discriminate|intros (b & E); discriminate]|]. rewrite andb_true_iff, Nat.eqb_eq, IH. split.
    + intros [-> (b & ->)]. exists b. reflexivity.
    + intros (b & E). injection E as -> ->. split; [reflexivity|exists b; reflexivity].
Qed.
Lemma substring_spec p : forall x, substring p x = true <-> exists a b, x = a ++ p ++ b.
Proof.
  induction x as [|c x IH]; cbn [substring]; rewrite orb_true_iff, prefix_spec.
  - split; [intros [(b & E)|E]; [exists [], b; exact E|discriminate]|]. intros (a & b & E). destruct a; [left; exists b; exact E|discriminate].
  - rewrite IH. split.
    + intros [(b & E)|(a & b & E)]; [exists [], b; exact E|exists (c :: a), b; cbn [app]; rewrite <- E; reflexivity].
    + intros (a & b & E). destruct a as [|a0 a]; [left; exists b; exact E|]. injection E as -> E. right. exists a, b. exact E.
Qed.
Lemma op_test_spec v : op_test v = None <-> odd_shape v.
Proof.
  destruct v as [| | | |x|l|d]; cbn [op_test odd_shape]; try (split; auto; discriminate).
  - rewrite <- substring_spec. destruct (substring (s "op") x); split; congruence.
  - destruct (existsb _ l) eqn:E.
    + split; [intros _|reflexivity]. apply existsb_exists in E. destruct E as (y & I & Y). apply is_str_spec in Y. subst. exact I.
    + split; [discriminate|]. intros I. enough (existsb (fun y => is_str y "op") l = true) by congruence. apply existsb_exists. exists (VStr (s "op")). split; [exact I|].
      apply is_str_spec. reflexivity.
  - destruct (get "op" d); split; try discriminate; intros [].
Qed.
Lemma in_names_spec x l : in_names x l = true <-> exists y, In y l /\ x = s y.
Proof.
  unfold in_names. rewrite existsb_exists. split; intros (y & I & E); exists y; (split; [exact I|]); [apply str_eqb_eq; exact E|apply str_eqb_eq; exact E].
Qed.
Lemma idr_none d : idr_of d = None <-> bad_signatures d.
Proof.
  unfold idr_of, bad_signatures. destruct (truthy (get_ "identifier" d)) eqn:T.
  - apply get_truthy in T. split; [discriminate|tauto].
  - apply get_falsy in T. unfold get_, get. destruct (find (s "signatures") d) as [w|]; [|split; [discriminate|intros (_ & w & E & _); discriminate]].
    destruct (truthy w) eqn:W.
    + destruct w; split; intros E; try discriminate E; try reflexivity;
        solve [split; [exact T|eexists; split; [reflexivity|split; [exact W|discriminate]]]
              |destruct E as (_ & w' & E & _ & N); injection E as <-; exfalso; eapply N; reflexivity].
    + split; [discriminate|]. intros (_ & w' & E & W' & _). injection E as <-. congruence.
Qed.
Lemma idr_some_truthy d i : idr_of d = Some i ->
  (match i with Some x => truthy x | None => false end = true <-> non_empty "identifier" d \/
     exists m, find (s "signatures") d = Some (VDict m) /\ join (map fst m) <> []).
Proof.
  unfold idr_of. destruct (truthy (get_ "identifier" d)) eqn:T; intros E.
  - injection E as <-. unfold get_ in T. destruct (get "identifier" d) as [x|] eqn:G; [|discriminate T]. rewrite T. split; [|reflexivity].
    intros _. left. exists x. split; [exact G|exact T].
  - apply get_falsy in T. unfold get_, get in E. destruct (find (s "signatures") d) as [w|] eqn:F.
    + destruct (truthy w) eqn:W; [|injection E as <-; split; [discriminate|]].
      * destruct w; try discriminate E. injection E as <-. cbn [truthy]. rewrite negb_true_iff, Nat.eqb_neq. split.
        -- intros N. right. exists d0. split; [reflexivity|]. intros J. rewrite J in N. exact (N eq_refl).
        -- intros [H|(m & H & N)]; [contradiction|]. injection H as <-. destruct (join (map fst d0)); [contradiction|discriminate].
      * intros [H|(m & H & N)]; [contradiction|]. injection H as ->. destruct m; [exfalso; apply N; reflexivity|discriminate W].
    + cbn in E. injection E as <-. split; [discriminate|]. intros [H|(m & H & _)]; [contradiction|discriminate].
Qed.

Section I.
  Variable ip_ok : str -> bool.
  Variable to_int : str -> option Z.
  Variable ledger_ids : list Z.
  Variable parse : str -> option value.
  Variable static : dict -> verdict.
  Variable is_query : value -> bool.
  Variable auth : dict -> verdict.
  Variable blacklisted : bool.
  Variable held_back : dict -> bool.
  Notation make := (make ip_ok to_int ledger_ids).
  Notation make_request := (make_request ip_ok to_int ledger_ids).
  Notation verify := (verify static is_query auth).
  Notation validate_client := (validate_client ip_ok to_int ledger_ids static is_query auth blacklisted).
  Notation handle_client := (handle_client ip_ok to_int ledger_ids parse static is_query auth blacklisted held_back).
  Notation verify_node := (verify_node ip_ok to_int ledger_ids is_query auth).
  Notation validate_node := (validate_node ip_ok to_int ledger_ids is_query auth blacklisted).
  Notation handle_node := (handle_node ip_ok to_int ledger_ids parse is_query auth blacklisted).

  (** a message that was accepted *)
  Lemma client_ok v cls d : validate_client v = COk cls d ->
    v = VDict d /\ ~ bad_signatures d /\
    ((cls = s "REQUEST" /\ request_like d /\ make_request d = Good /\ verify d = Pass) \/
     (exists y c, In y ["BATCH"; "LEDGER_STATUS"; "CATCHUP_REQ"]%string /\ cls = s y /\ has_op y d /\ find cls classes = Some c /\ make c d = Good)).
  Proof.
    unfold Intake_Model.validate_client. destruct blacklisted; [discriminate|]. destruct v as [| | | | | |d0]; try discriminate.
    destruct (idr_of d0) as [i|] eqn:I; [|discriminate].
    assert (~ bad_signatures d0) as NB by (intros B; apply idr_none in B; congruence).
    match goal with |- context [if ?b then _ else _] => destruct b eqn:R end.
    - destruct (make_request d0) eqn:M; try discriminate. destruct (verify d0) eqn:V; [|discriminate]. intros E. injection E as <- <-.
      split; [reflexivity|]. split; [exact NB|]. left. rewrite !andb_true_iff, !get_truthy in R. destruct R as [[R1 R2] R3].
      split; [reflexivity|]. split; [split; [exact R1|split; [exact R2|exact (proj1 (idr_some_truthy d0 i I) R3)]]|]. auto.
    - destruct (get "op" d0) as [op|] eqn:G; [|discriminate]. destruct op as [| | | |x| |]; try discriminate.
      destruct (in_names x _) eqn:N; [|discriminate]. destruct (find x classes) as [c|] eqn:F; [|discriminate]. destruct (make c d0) eqn:M; try discriminate.
      intros E. injection E as <- <-. split; [reflexivity|]. split; [exact NB|]. right. apply in_names_spec in N. destruct N as (y & Y & ->).
      exists y, c. unfold has_op. repeat split; auto.
  Qed.
  (** a message that was refused by an exception without args *)
  Lemma client_bad v : validate_client v = CBad (Fault false) ->
    exists d, v = VDict d /\ request_like d /\ make_request d = Good /\ verify d = Fail (Fault false) /\ ~ bad_signatures d.
  Proof.
    unfold Intake_Model.validate_client. destruct blacklisted; [discriminate|]. destruct v as [| | | | | |d0]; try discriminate.
    destruct (idr_of d0) as [i|] eqn:I; [|discriminate].
    match goal with |- context [if ?b then _ else _] => destruct b eqn:R end.
    - destruct (make_request d0) eqn:M; try discriminate. destruct (verify d0) as [|f] eqn:V; [discriminate|]. intros E. injection E as ->.
      exists d0. rewrite !andb_true_iff, !get_truthy in R. destruct R as [[R1 R2] R3].
      split; [reflexivity|]. split; [split; [exact R1|split; [exact R2|exact (proj1 (idr_some_truthy d0 i I) R3)]]|]. repeat split; auto.
      intros B. apply idr_none in B. congruence.
    - destruct (get "op" d0) as [op|]; [|discriminate]. destruct op as [| | | |x| |]; try discriminate.
      destruct (in_names x _); [|discriminate]. destruct (find x classes) as [c|]; [|discriminate]. destruct (make c d0); discriminate.
  Qed.
  Lemma request_path d : blacklisted = false -> ~ bad_signatures d -> request_like d -> make_request d = Good ->
    validate_client (VDict d) = match verify d with Pass => COk (s "REQUEST") d | Fail f => CBad f end.
  Proof.
    intros B N (R1 & R2 & R3) M. unfold Intake_Model.validate_client. rewrite B. destruct (idr_of d) as [i|] eqn:I; [|apply idr_none in I; contradiction].
    assert (truthy (get_ "operation" d) && truthy (get_ "reqId" d) && match i with Some x => truthy x | None => false end = true) as ->.
    { rewrite !andb_true_iff, !get_truthy, (idr_some_truthy d i I). auto. }
    rewrite M. reflexivity.
  Qed.
  Lemma bad_sigs_bad d : blacklisted = false -> bad_signatures d -> validate_client (VDict d) = CBad (Fault true).
  Proof. intros B N. apply idr_none in N. unfold Intake_Model.validate_client. rewrite B, N. reflexivity. Qed.
  Lemma client_left v : validate_client v = CLeft <-> blacklisted = true.
  Proof.
    split.
    - unfold Intake_Model.validate_client. destruct blacklisted; [reflexivity|]. intros H. exfalso. destruct v; try discriminate.
      destruct (idr_of d) as [i|]; [|discriminate]. match type of H with context [if ?b then _ else _] => destruct b end.
      + destruct (make_request d); try discriminate. destruct (verify d); discriminate.
      + destruct (get "op" d) as [op|]; [|discriminate]. destruct op; try discriminate. destruct (in_names x _); [|discriminate].
        destruct (find x classes) as [c|]; [|discriminate]. destruct (make c d); discriminate.
    - intros B. unfold Intake_Model.validate_client. rewrite B. reflexivity.
  Qed.

  Lemma invalid_fault f v : snd (invalid f v) <> None <->
    (forall d, v <> VDict d) \/ (exists d, v = VDict d /\ (bad_signatures d \/ (has_op "LEDGER_STATUS" d /\ f = Fault false))).
  Proof.
    unfold invalid. destruct v as [| | | | | |d]; try (split; [intros _; left; discriminate|intros _; discriminate]).
    split.
    - intros H. right. exists d. split; [reflexivity|]. destruct (idr_of d) as [i|] eqn:I; [|left; apply idr_none; exact I].
      destruct (is_str (get_ "op" d) "LEDGER_STATUS") eqn:O; [|exfalso; exact (H eq_refl)]. destruct f as [[]]; [exfalso; exact (H eq_refl)|].
      right. split; [|reflexivity]. apply is_str_spec in O. unfold has_op. unfold get_, get in O. destruct (find (s "op") d); [congruence|discriminate].
    - intros [H|(d' & E & H)]; [exfalso; exact (H d eq_refl)|]. injection E as <-. destruct H as [B|[O F]].
      + apply idr_none in B. rewrite B. discriminate.
      + destruct (idr_of d); [|discriminate]. unfold has_op in O. unfold get_, get. rewrite O. subst f.
        replace (is_str (VStr (s "LEDGER_STATUS")) "LEDGER_STATUS") with true by reflexivity. discriminate.
  Qed.

  Definition batch_loop (n : nat) : list str -> list out * option fault :=
    fix each_m (l : list str) : list out * option fault :=
      match l with
      | [] => ([], None)
      | x :: r =>
        if ping x then each_m r
        else match parse x with
             | None => ([], Some (Fault true))
             | Some m =>
               let '(o, e) := handle_client n m in
               match e with
               | Some f => (o, Some f)
               | None => let '(o', e') := each_m r in (o ++ o', e')
               end
             end
      end.
  Lemma handle_client_S n v : handle_client (S n) v =
    match validate_client v with
    | CLeft => ([Left], None)
    | CBad f => invalid f v
    | COk cls d =>
      if str_eqb cls (s "BATCH") then
        let '(o, e) := batch_loop n (messages d) in
        match e with None => (o, None) | Some f => let '(o', e') := invalid f v in (o ++ o', e') end
      else if str_eqb cls (s "REQUEST") && held_back d then ([Left], None)
      else ([Posted cls d], None)
    end.
  Proof. reflexivity. Qed.

  Lemma client_stops n v : snd (handle_client (S n) v) <> None <->
    blacklisted = false /\ ((forall d, v <> VDict d) \/ exists d, v = VDict d /\
      (bad_signatures d \/ (has_op "LEDGER_STATUS" d /\ request_like d /\ make_request d = Good /\ verify d = Fail (Fault false)))).
  Proof.
    rewrite handle_client_S. split.
    - intros H. destruct (validate_client v) as [|cls d|f] eqn:V.
      + exfalso. exact (H eq_refl).
      + assert (blacklisted = false) as B. { destruct blacklisted eqn:B; [|reflexivity]. unfold Intake_Model.validate_client in V. discriminate V. }
        split; [exact B|]. exfalso. destruct (client_ok v cls d V) as (-> & NB & K). destruct (str_eqb cls (s "BATCH")) eqn:C.
        * apply str_eqb_eq in C. destruct (batch_loop n (messages d)) as [o [f|]]; [|exact (H eq_refl)].
          destruct K as [(E & _)|(y & c & Y & E & O & _)]; [rewrite C in E; discriminate E|].
          assert (y = "BATCH"%string) as ->. { destruct Y as [<-|[<-|[<-|[]]]]; [reflexivity| |]; rewrite C in E; discriminate E. }
          destruct (invalid f (VDict d)) as [o' e'] eqn:Iv. assert (snd (invalid f (VDict d)) <> None) as X by (rewrite Iv; exact H).
          apply invalid_fault in X. destruct X as [X|(d' & E' & [X|[X _]])]; [exact (X d eq_refl)|injection E' as <-; contradiction|].
          injection E' as <-. unfold has_op in *. rewrite O in X. discriminate X.
        * destruct (str_eqb cls (s "REQUEST") && held_back d); exact (H eq_refl).
      + assert (blacklisted = false) as B. { destruct blacklisted eqn:B; [|reflexivity]. unfold Intake_Model.validate_client in V. discriminate V. }
        split; [exact B|]. apply invalid_fault in H. destruct H as [H|(d & -> & H)]; [left; exact H|]. right. exists d. split; [reflexivity|].
        destruct H as [H|[O ->]]; [left; exact H|]. right. destruct (client_bad _ V) as (d' & E & R & M & Vf & _). injection E as <-. auto.
    - intros [B [H|(d & -> & [H|(O & R & M & F)])]].
      + assert (validate_client v = CBad (Fault true)) as ->.
        { unfold Intake_Model.validate_client. rewrite B. destruct v; try reflexivity. exfalso. exact (H d eq_refl). }
        apply invalid_fault. left. exact H.
      + rewrite (bad_sigs_bad d B H). apply invalid_fault. right. exists d. auto.
      + destruct (idr_of d) as [i|] eqn:I.
        * rewrite (request_path d B) by (try assumption; intros N; apply idr_none in N; congruence). rewrite F. apply invalid_fault. right. exists d. auto.
        * apply idr_none in I. rewrite (bad_sigs_bad d B I). apply invalid_fault. right. exists d. auto.
  Qed.

  (** what is posted *)
  Definition postable (o : out) : Prop :=
    match o with
    | Posted cls d => (cls = s "REQUEST" /\ make_request d = Good /\ verify d = Pass) \/
                      (exists y c, In y ["LEDGER_STATUS"; "CATCHUP_REQ"]%string /\ cls = s y /\ find cls classes = Some c /\ make c d = Good)
    | _ => True
    end.
  Lemma invalid_postable f v o : In o (fst (invalid f v)) -> postable o.
  Proof.
    unfold invalid. destruct v; cbn [fst In]; try tauto. destruct (idr_of d) as [i|]; cbn [fst In]; [|tauto].
    destruct (is_str _ _); [destruct f as [[]]|]; cbn [fst In]; intros [<-|[]]; exact Logic.I.
  Qed.
  Lemma posted_ok n : forall v o, In o (fst (handle_client n v)) -> postable o.
  Proof.
    induction n as [|n IH]; intros v o; [intros []|]. rewrite handle_client_S. destruct (validate_client v) as [|cls d|f] eqn:V.
    - intros [<-|[]]. exact Logic.I.
    - destruct (client_ok v cls d V) as (-> & NB & K). destruct (str_eqb cls (s "BATCH")) eqn:C.
      + assert (forall l o, In o (fst (batch_loop n l)) -> postable o) as L.
        { clear -IH. induction l as [|x l IL]; intros o; [intros []|]. cbn [batch_loop]. destruct (ping x); [exact (IL o)|].
          destruct (parse x) as [m|]; [|intros []]. pose proof (IH m) as Hm. destruct (handle_client n m) as [o1 [e|]]; cbn [fst] in *; [exact (Hm o)|].
          fold (batch_loop n). destruct (batch_loop n l) as [o2 e2]. cbn [fst] in *. intros J. apply in_app_or in J. destruct J as [J|J]; [exact (Hm o J)|exact (IL o J)]. }
        pose proof (L (messages d)) as Lm. destruct (batch_loop n (messages d)) as [o1 [e|]]; cbn [fst] in *; [|exact (Lm o)].
        pose proof (invalid_postable e (VDict d)) as Li. destruct (invalid e (VDict d)) as [o2 e2]. cbn [fst] in *. intros J. apply in_app_or in J.
        destruct J as [J|J]; [exact (Lm o J)|exact (Li o J)].
      + destruct (str_eqb cls (s "REQUEST") && held_back d); cbn [fst In]; [intros [<-|[]]; exact Logic.I|]. intros [<-|[]]. cbn [postable].
        destruct K as [(E & _ & M & Vf)|(y & c & Y & E & _ & F & M)]; [left; auto|]. right. exists y, c.
        destruct Y as [<-|Y]; [subst cls; cbn in C; discriminate C|]. auto.
    - exact (invalid_postable f v o).
  Qed.

  (** answers to a single message *)
  Lemma answered n d : blacklisted = false -> ~ has_op "BATCH" d \/ request_like d -> ~ bad_signatures d ->
    let o := fst (handle_client (S n) (VDict d)) in
    (exists cls, o = [Posted cls d]) \/ (o = [Left] /\ held_back d = true /\ make_request d = Good /\ verify d = Pass) \/
    exists i, idr_of d = Some i /\ o = [Nack i (if truthy (get_ "reqId" d) then get_ "reqId" d else VInt 1)].
  Proof.
    intros B NB NS. cbv zeta. rewrite handle_client_S. destruct (validate_client (VDict d)) as [|cls d'|f] eqn:V.
    - apply client_left in V. congruence.
    - destruct (client_ok _ cls d' V) as (E & _ & K). injection E as <-. destruct (str_eqb cls (s "BATCH")) eqn:C.
      + exfalso. apply str_eqb_eq in C. destruct K as [(E & _)|(y & c & Y & E & O & F & M)]; [rewrite C in E; discriminate E|].
        assert (y = "BATCH"%string) as ->. { destruct Y as [<-|[<-|[<-|[]]]]; [reflexivity| |]; rewrite C in E; discriminate E. }
        destruct NB as [NB|R]; [exact (NB O)|].
        unfold Intake_Model.validate_client in V. rewrite B in V. destruct (idr_of d) as [i|] eqn:I; [|discriminate V].
        destruct R as (R1 & R2 & R3).
        assert (truthy (get_ "operation" d) && truthy (get_ "reqId" d) && match i with Some x => truthy x | None => false end = true) as X.
        { rewrite !andb_true_iff, !get_truthy, (idr_some_truthy d i I). auto. }
        rewrite X in V. destruct (make_request d); try discriminate V. destruct (verify d); [|discriminate V]. injection V as V. rewrite C in V. discriminate V.
      + destruct (str_eqb cls (s "REQUEST")) eqn:C2; cbn [andb]; [|left; exists cls; reflexivity].
        destruct (held_back d) eqn:Hb; [|left; exists cls; reflexivity]. right. left. apply str_eqb_eq in C2.
        destruct K as [(_ & _ & M & Vf)|(y & c & Y & E & _)]; [auto|]. exfalso. rewrite C2 in E. destruct Y as [<-|[<-|[<-|[]]]]; discriminate E.
    - right. right. unfold invalid. destruct (idr_of d) as [i|] eqn:I; [|apply idr_none in I; contradiction]. exists i. split; [reflexivity|].
      destruct (is_str _ _); [destruct f as [[]]|]; reflexivity.
  Qed.

  (** ** Nodes *)
  Lemma node_ok v cls d : validate_node v = Some (cls, d) ->
    v = VDict d /\ exists c, find cls classes = Some c /\ make c d = Good /\ verify_node cls d = true.
  Proof.
    unfold Intake_Model.validate_node. destruct blacklisted; [discriminate|]. destruct v as [| | | | | |d0]; try discriminate.
    destruct (find (s "self") d0); [discriminate|]. destruct (get_ "op" d0) as [| | | |x| |]; try discriminate.
    destruct (find x classes) as [c|] eqn:F; [|discriminate]. destruct (make c d0) eqn:M; try discriminate. destruct (verify_node x d0) eqn:V; [|discriminate].
    intros E. injection E as <- <-. split; [reflexivity|]. exists c. auto.
  Qed.
  Definition node_postable (o : out) : Prop :=
    match o with
    | Posted cls d => exists y c, In y node_routes /\ cls = s y /\ find cls classes = Some c /\ make c d = Good /\
        (y = "PROPAGATE"%string -> exists r, find (s "request") d = Some (VDict r) /\ make_request r = Good /\
           (is_query (match get "operation" r with Some (VDict o) => get_ "type" o | _ => VNull end) = true \/
            ((exists x, find_nn (s "signature") r = Some x \/ find_nn (s "signatures") r = Some x) /\ auth r = Pass)))
    | Left => True
    | Nack _ _ => False
    end.
  Definition node_loop (n : nat) : list str -> list out :=
    fix each_m (l : list str) : list out :=
      match l with
      | [] => []
      | x :: r => match parse x with None => each_m r | Some m => handle_node n m ++ each_m r end
      end.
  Lemma handle_node_S n v : handle_node (S n) v =
    match validate_node v with
    | None => [Left]
    | Some (cls, d) => if str_eqb cls (s "BATCH") then node_loop n (messages d) else [Posted cls d]
    end.
  Proof. reflexivity. Qed.
  Lemma s_inj_propagate y : In y whitelist -> y <> "PROPAGATE"%string.
  Proof. intros I ->. unfold whitelist in I. repeat (destruct I as [E|I]; [discriminate E|]). exact I. Qed.
  Lemma white_routes y : In y whitelist -> y = "BATCH"%string \/ In y node_routes.
  Proof. intros I. unfold whitelist in I. repeat (destruct I as [<-|I]; [first [left; reflexivity|right; unfold node_routes; cbn [In]; tauto]|]). destruct I. Qed.
  Lemma node_posted_ok n : forall v o, In o (handle_node n v) -> node_postable o.
  Proof.
    induction n as [|n IH]; intros v o; [intros []|]. rewrite handle_node_S. destruct (validate_node v) as [[cls d]|] eqn:V; [|intros [<-|[]]; exact Logic.I].
    destruct (node_ok v cls d V) as (-> & c & F & M & Vf). destruct (str_eqb cls (s "BATCH")) eqn:C.
    - generalize (messages d). induction l as [|x l IL]; [intros []|]. cbn [node_loop]. destruct (parse x) as [m|]; [|exact IL].
      intros J. apply in_app_or in J. destruct J as [J|J]; [exact (IH m o J)|exact (IL J)].
    - intros [<-|[]]. cbn [node_postable]. unfold Intake_Model.verify_node in Vf. apply orb_true_iff in Vf. destruct Vf as [W|P].
      + apply in_names_spec in W. destruct W as (y & Y & ->). exists y, c.
        destruct (white_routes y Y) as [-> |R]; [rewrite str_eqb_refl in C; discriminate C|].
        split; [exact R|]. split; [reflexivity|]. split; [exact F|]. split; [exact M|]. intros ->. exfalso. exact (s_inj_propagate _ Y eq_refl).
      + apply andb_true_iff in P. destruct P as [P Q]. apply str_eqb_eq in P. subst cls. exists "PROPAGATE"%string, c.
        split; [left; reflexivity|]. split; [reflexivity|]. split; [exact F|]. split; [exact M|]. intros _.
        destruct (get "request" d) as [[| | | | | |r]|] eqn:G; try discriminate Q. exists r. split; [exact G|].
        destruct (make_request r) eqn:Mr; try discriminate Q. split; [reflexivity|].
        destruct (is_query _); [left; reflexivity|]. right.
        destruct (find_nn (s "signature") r) as [x|], (find_nn (s "signatures") r) as [y|]; try discriminate Q; destruct (auth r); try discriminate Q; eauto.
  Qed.
End I.
