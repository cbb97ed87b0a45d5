(** Model of what makes a node vote against the primary because of a three phase message:
    plenum/server/consensus/ordering_service.py:222-323, 440-490, 499-643, 809-866 (the checks and the
    suspicions they raise), plenum/server/replica.py:640-644, 676-679, plenum/server/node.py:2854-2905
    [reportSuspiciousNode], plenum/server/suspicion_codes.py; the vote itself is Trigger_Model's. *)
From Coq Require Import List Arith ZArith Bool.
From Verif Require Import Validator_Model.
From Verif Require Trigger_Model.
Import ListNotations.

(** suspicion_codes.py *)
Definition DUPLICATE_PPR_SENT := 2.
Definition DUPLICATE_PR_SENT := 3.
Definition UNKNOWN_PR_SENT := 4.
Definition PR_DIGEST_WRONG := 5.
Definition DUPLICATE_CM_SENT := 8.
Definition PPR_FRM_NON_PRIMARY := 9.
Definition PR_FRM_PRIMARY := 10.
Definition PPR_DIGEST_WRONG := 11.
Definition PPR_TIME_WRONG := 18.
Definition PPR_REJECT_WRONG := 20.
Definition PPR_STATE_WRONG := 21.
Definition PPR_TXN_WRONG := 22.
Definition PR_STATE_WRONG := 23.
Definition PR_TXN_WRONG := 24.
Definition PPR_BLS_MULTISIG_WRONG := 29.
Definition CM_BLS_SIG_WRONG := 31.
Definition PPR_PLUGIN_EXCEPTION := 35.
Definition PPR_SUB_SEQ_NO_WRONG := 37.
Definition PPR_NOT_FINAL := 38.
Definition PPR_POOL_STATE_ROOT_HASH_WRONG := 41.
Definition PPR_WITH_ORDERED_REQUEST := 42.
Definition PPR_AUDIT_TXN_ROOT_HASH_WRONG := 44.
Definition PR_AUDIT_TXN_ROOT_HASH_WRONG := 45.
Definition PPR_WITH_WRONG_PRIMARIES := 50.

(** The replica: what its validator reads, the primary now and those of views it remembers. *)
Record replica := Replica { r_data : vdata; r_primary : option nat; r_primaries : list (nat * nat) }.

(** A PrePrepare: the fields the digest is made of, the digest it has; the others are in the facts. *)
Record pre_prepare := PP { p_inst : nat; p_view : nat; p_seq : nat; p_orig : nat; p_time : nat; p_reqs : list nat; p_digest : nat }.

(** Why a batch was not applied: ordering_service.py:535-555 *)
Inductive why := REJECT_WRONG | WRONG_STATE | ROOT_HASH_MISMATCH | HOOK_ERROR | SUB_SEQ_NO | NOT_FINAL
  | AUDIT_HASH_MISMATCH | ALREADY_ORDERED | WRONG_PRIMARIES.
(** What the replica finds when it compares the message with its own state (not modelled here):
    is there a PrePrepare with that key; is its time acceptable; is it below the last one; are there
    requests that are not finalised and is one of them ordered already; is it the next; is its pool
    state root right; are its multi-signatures right; what applying it gave. *)
Record facts := Facts {
  f_known : bool; f_time_ok : bool; f_old : bool; f_unfinalised : bool; f_ordered : bool; f_next : bool;
  f_pool_root : bool; f_multisig : bool; f_applied : option why }.

(** Prepares and Commits: ordering_service.py:255-323, 457-490 *)
Record pfacts := PFacts {
  pf_primary : option bool; pf_dup : bool; pf_pp : bool; pf_digest : bool; pf_state : bool; pf_txn : bool; pf_audit : bool }.
Record cfacts := CFacts { cf_prepared : bool; cf_dup : bool; cf_sig : bool }.

Inductive message :=
| MPrePrepare (p : pre_prepare) (f : facts)
| MPrepare (inst view seq : nat) (f : pfacts)
| MCommit (inst view seq : nat) (f : cfacts).

Section Suspect.
  (** 829-831 [generate_pp_digest] (sha256) *)
  Variable digest : list nat -> nat -> nat -> nat.

  (** 1054-1066 [_is_msg_from_primary] *)
  Definition from_primary (r : replica) (view sender : nat) : bool :=
    if view =? d_view (r_data r) then match r_primary r with Some p => p =? sender | None => false end
    else match find (fun x => fst x =? view) (r_primaries r) with Some x => snd x =? sender | None => false end.

  (** 818-866 [_can_process_pre_prepare] with 532-643 of [process_preprepare]: the suspicion raised *)
  Definition check_pre_prepare (r : replica) (p : pre_prepare) (f : facts) (sender : nat) : list nat :=
    if has_already_ordered (d_last_ordered (r_data r)) (p_view p) (p_seq p) then [] (* 826-827, 872-890 *)
    else if negb (digest (p_reqs p) (p_orig p) (p_time p) =? p_digest p) then [PPR_DIGEST_WRONG]
    else if negb (from_primary r (p_view p) sender) then [PPR_FRM_NON_PRIMARY]
    else if f_known f then [DUPLICATE_PPR_SENT]
    else if negb (f_time_ok f) then [PPR_TIME_WRONG]
    else if f_old f then []
    else if f_unfinalised f then if f_ordered f then [PPR_WITH_ORDERED_REQUEST] else []
    else if negb (f_next f) then []
    else if negb (f_pool_root f) then [PPR_POOL_STATE_ROOT_HASH_WRONG]
    else if negb (f_multisig f) then [PPR_BLS_MULTISIG_WRONG]
    else match f_applied f with
         | None | Some NOT_FINAL => []
         | Some REJECT_WRONG => [PPR_REJECT_WRONG]
         | Some WRONG_STATE => [PPR_STATE_WRONG]
         | Some ROOT_HASH_MISMATCH => [PPR_TXN_WRONG]
         | Some HOOK_ERROR => [PPR_PLUGIN_EXCEPTION]
         | Some SUB_SEQ_NO => [PPR_SUB_SEQ_NO_WRONG]
         | Some AUDIT_HASH_MISMATCH => [PPR_AUDIT_TXN_ROOT_HASH_WRONG]
         | Some ALREADY_ORDERED => [PPR_WITH_ORDERED_REQUEST]
         | Some WRONG_PRIMARIES => [PPR_WITH_WRONG_PRIMARIES]
         end.

  (** 255-323 [_validate_prepare] *)
  Definition check_prepare (r : replica) (view seq : nat) (f : pfacts) (sender : nat) : list nat :=
    if from_primary r view sender then [PR_FRM_PRIMARY]
    else
      let rest :=
        if negb (pf_digest f) then [PR_DIGEST_WRONG] else if negb (pf_state f) then [PR_STATE_WRONG]
        else if negb (pf_txn f) then [PR_TXN_WRONG] else if negb (pf_audit f) then [PR_AUDIT_TXN_ROOT_HASH_WRONG] else [] in
      match pf_primary f with
      | Some false => if pf_dup f then [DUPLICATE_PR_SENT] else if negb (pf_pp f) then [] else rest
      | Some true => if pf_dup f then [DUPLICATE_PR_SENT]
                     else if negb (pf_pp f) then if seq <=? d_prev_cert (r_data r) then [] else [UNKNOWN_PR_SENT]
                     else rest
      | None => if negb (pf_pp f) then [] else rest
      end.
  (** 457-490 [_validate_commit] *)
  Definition check_commit (r : replica) (view seq : nat) (f : cfacts) : list nat :=
    if negb (cf_prepared f) then []
    else if cf_dup f then [DUPLICATE_CM_SENT]
    else if negb (has_already_ordered (d_last_ordered (r_data r)) view seq) && negb (cf_sig f) then [CM_BLS_SIG_WRONG]
    else [].

  (** the suspicions a message raises: 222-250, 440-455, 499-530: only if the validator says PROCESS *)
  Definition suspicions (r : replica) (m : message) (sender : nat) : list nat :=
    let go inst view seq l := match validate_3pc (r_data r) inst view seq with PROCESS => l | _ => [] end in
    match m with
    | MPrePrepare p f => go (p_inst p) (p_view p) (p_seq p) (check_pre_prepare r p f sender)
    | MPrepare i v s f => go i v s (check_prepare r v s f sender)
    | MCommit i v s f => go i v s (check_commit r v s f)
    end.

  (** node.py:2889-2900: the codes for which reportSuspiciousNode votes *)
  Definition vote_codes : list nat :=
    [PPR_DIGEST_WRONG; PPR_REJECT_WRONG; PPR_TXN_WRONG; PPR_STATE_WRONG; PPR_PLUGIN_EXCEPTION; PPR_SUB_SEQ_NO_WRONG;
     PPR_NOT_FINAL; PPR_WITH_ORDERED_REQUEST; PPR_AUDIT_TXN_ROOT_HASH_WRONG; PPR_BLS_MULTISIG_WRONG; PPR_TIME_WRONG].
  (** replica.py:640-644, 676-679: a backup only logs it; node.py:2860-2905 *)
  Definition votes (r : replica) (m : message) (sender : nat) : list nat :=
    if d_is_master (r_data r) then filter (fun c => existsb (Nat.eqb c) vote_codes) (suspicions r m sender) else [].

  (** node.py:2902: VoteForViewChange on the bus of the master replica; the suspicion is not
      STATE_SIGS_ARE_NOT_UPDATED and no view is named *)
  Definition on_message (window now : Z) (r : replica) (m : message) (sender : nat) (s : Trigger_Model.state) : Trigger_Model.state :=
    fold_left (fun s c => Trigger_Model.process_vote window now false (d_waiting_for_new_view (r_data r)) None (Z.of_nat c) s)
      (votes r m sender) s.
End Suspect.
