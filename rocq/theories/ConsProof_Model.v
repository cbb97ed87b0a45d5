(** Model of plenum/server/catchup/cons_proof_service.py: how a node finds out from the
    others whether a ledger is behind, and up to where it has to catch up. *)
From Coq Require Import List Arith NArith Bool.
From Verif Require Import Base Dict Quorum_Model CatchupReq_Model Catchup_Model Seeder_Model.
Import ListNotations.

(** What the provider shows at the time of a call: the ledger (size, seqNo, root), the
    names of all nodes, this node's own name and the nodes one may ask. *)
Record env := mkEnv
  { e_size : nat; e_seqNo : nat; e_root : bytes;
    e_names : list nat; e_self : nat; e_eligible : list nat }.

Definition cp_eq_dec (a b : cproof) : {a = b} + {a <> b}.
Proof. decide equality; try apply Nat.eq_dec; try apply bytes_eq_dec; apply (list_eq_dec bytes_eq_dec). Defined.
Definition key := (option nat * option nat)%type.
Definition key_eq_dec (a b : key) : {a = b} + {a <> b}.
Proof. decide equality; decide equality; apply Nat.eq_dec. Defined.

(** what the service does, seen from outside *)
Inductive entry :=
| LAskStatus (nodes : option (list nat))           (* MessageReq for ledger statuses; None: to everyone *)
| LAskProof (a b : nat) (nodes : list nat)         (* MessageReq for the consistency proof from a to b *)
| LStatus (s : lstatus) (nodes : list nat)         (* this node's status is sent *)
| LDiscard                                         (* provider.discard *)
| LStart (t : option till) (sizes : dict nat)      (* LedgerCatchupStart *)
| LRaise (e : exn).

(** lines 37-60; [k_n] is the number of nodes [_quorum] was built for, the last fields say
    which timers are running. *)
Record st := mkSt
  { k_working : bool; k_n : nat; k_same : list nat; k_proofs : dict (option cproof);
    k_asked : bool; k_keys : dict key;
    k_tstatus : bool; k_tproof : bool; k_pending : bool; k_log : list entry }.

Definition emit e s := mkSt (k_working s) (k_n s) (k_same s) (k_proofs s) (k_asked s) (k_keys s)
  (k_tstatus s) (k_tproof s) (k_pending s) (k_log s ++ [e]).
Definition with_votes same proofs s := mkSt (k_working s) (k_n s) same proofs (k_asked s) (k_keys s)
  (k_tstatus s) (k_tproof s) (k_pending s) (k_log s).
Definition with_keys ks s := mkSt (k_working s) (k_n s) (k_same s) (k_proofs s) (k_asked s) ks
  (k_tstatus s) (k_tproof s) (k_pending s) (k_log s).
Definition with_asked s := mkSt (k_working s) (k_n s) (k_same s) (k_proofs s) true (k_keys s)
  (k_tstatus s) (k_tproof s) (k_pending s) (k_log s).
Definition with_timers a b c s := mkSt (k_working s) (k_n s) (k_same s) (k_proofs s) (k_asked s) (k_keys s)
  a b c (k_log s).

(** the object as created; [n] is the number of nodes then *)
Definition init (n : nat) : st := mkSt false n [] [] false [] false false false [].

Section Service.
  Variable lid : nat.  (* _ledger_id *)

  Definition q (s : st) : quorums := Quorums (k_n s).

  (** utils.py:97-107 *)
  Definition my_status (e : env) : lstatus := mkLS lid (e_size e) (Some 0) (Some 0) (e_root e).

  (** ** Counting *)

  (** lines 317-341 [_get_group_consistency_proofs]: per range, in order of appearance, the
      number of times each proof was received; then the number of nulls. Within a range two
      proofs are equal if the rest of their fields is (the ledger is the same for all). *)
  Fixpoint incr (c : cproof) (g : list (cproof * nat)) : list (cproof * nat) :=
    match g with
    | [] => [(c, 1)]
    | (d, k) :: g' => if cp_eq_dec c d then (d, S k) :: g' else (d, k) :: incr c g'
    end.
  Fixpoint add_group (c : cproof) (gs : list ((nat * nat) * list (cproof * nat))) :=
    match gs with
    | [] => [((c_start c, c_end c), [(c, 1)])]
    | ((a, b), g) :: gs' =>
      if (c_start c =? a) && (c_end c =? b) then ((a, b), incr c g) :: gs' else ((a, b), g) :: add_group c gs'
    end.
  Definition group (proofs : dict (option cproof)) : list ((nat * nat) * list (cproof * nat)) * nat :=
    fold_left (fun '(gs, nulls) '(_, p) =>
      match p with
      | Some c => (add_group c gs, nulls)
      | None => (gs, S nulls)
      end) proofs ([], 0).

  (** lines 343-354 [_get_reliable_proofs] *)
  Definition reliable (s : st) (gs : list ((nat * nat) * list (cproof * nat))) : list cproof :=
    flat_map (fun '(_, g) =>
      match find (fun '(_, count) => is_reached (same_consistency_proof (q s)) count) g with
      | Some (c, _) => [c]
      | None => []
      end) gs.
  (** lines 356-370 [_get_latest_reliable_proof] *)
  Definition latest_reliable (e : env) (s : st) (gs : list ((nat * nat) * list (cproof * nat))) : option cproof :=
    fold_left (fun latest c =>
      if negb (c_start c =? e_size e) then latest
      else match latest with
           | None => Some c
           | Some l => if c_end l <? c_end c then Some c else latest
           end) (reliable s gs) None.

  (** lines 254-271 [_is_catchup_needed] *)
  Definition is_catchup_needed (s : st) : bool :=
    if is_reached (ledger_status (q s)) (length (k_same s)) then false
    else if negb (is_reached (consistency_proof (q s)) (length (k_proofs s))) then true
    else negb (is_reached (ledger_status (q s)) (snd (group (k_proofs s)))).

  (** lines 303-315 [_get_cons_proof_for_catchup] *)
  Definition get_cons_proof_for_catchup (e : env) (s : st) : option cproof :=
    if negb (is_reached (consistency_proof (q s)) (length (k_proofs s))) then None
    else latest_reliable e s (fst (group (k_proofs s))).

  (** collections.Counter.most_common: by count, highest first, else in order of appearance *)
  Fixpoint count_key (k : key) (g : list (key * nat)) : list (key * nat) :=
    match g with
    | [] => [(k, 1)]
    | (k', n) :: g' => if key_eq_dec k k' then (k', S n) :: g' else (k', n) :: count_key k g'
    end.
  Fixpoint insert_desc {A} (x : A * nat) (l : list (A * nat)) : list (A * nat) :=
    match l with
    | [] => [x]
    | y :: l' => if snd y <=? snd x then x :: l else y :: insert_desc x l'
    end.
  Definition most_common (ks : list key) : list (key * nat) :=
    fold_right insert_desc [] (fold_left (fun g k => count_key k g) ks []).
  (** util.py:625-626 [min_3PC_key]: the first one with the least ppSeqNo *)
  Fixpoint min_3PC_key (ks : list (nat * nat)) : option (nat * nat) :=
    match ks with
    | [] => None
    | k :: ks' => match min_3PC_key ks' with
                  | Some k' => if snd k <=? snd k' then Some k else Some k'
                  | None => Some k
                  end
    end.
  (** lines 151-166 [_get_last_txn_3PC_key] *)
  Definition get_last_txn_3PC_key (s : st) : option (nat * nat) :=
    min_3PC_key (flat_map (fun '(k, freq) =>
      match k with
      | (Some v, Some p) => if is_reached (ledger_status_last_3PC (q s)) freq then [(v, p)] else []
      | _ => []
      end) (most_common (map snd (k_keys s)))).

  (** ** Finishing *)

  (** lines 111-131 [_finish], 452-457 [_cancel_reask] *)
  Definition finish (c : option cproof) (s : st) : st :=
    let t := match c with Some c => Some (mkTill (c_start c) (c_end c) (Some (c_new c))) | None => None end in
    let sizes := flat_map (fun '(n, p) => match p with Some c => [(n, c_end c)] | None => [] end) (k_proofs s) in
    mkSt false (k_n s) [] [] (k_asked s) (k_keys s) false false false (k_log s ++ [LStart t sizes]).
  (** lines 133-149 [_finish_no_catchup] *)
  Definition finish_no_catchup (e : env) (s : st) : st :=
    match get_last_txn_3PC_key s with
    | None => finish None s
    | Some (v, p) => finish (Some (mkCP lid (e_size e) (e_size e) v p (e_root e) (e_root e) [])) s
    end.

  (** ** Messages *)

  (** lines 65-77 [start] *)
  Definition start (e : env) (request_ledger_statuses : bool) (s : st) : st :=
    let s := mkSt true (length (e_names e)) [] [] false [] (k_tstatus s) (k_tproof s) (k_pending s) (k_log s) in
    let s := if request_ledger_statuses then emit (LAskStatus None) s else s in
    with_timers true (k_tproof s) (k_pending s) s.

  (** lines 79-86, 177-185, 215-252 [process_ledger_status] *)
  Definition process_ledger_status (e : env) (m : lstatus) (frm : nat) (s : st) : st :=
    if negb (ls_ledger m =? lid) then s
    else if negb (k_working s) then s
    else if e_seqNo e <? ls_size m then
      let s := emit (LStatus (my_status e) [frm]) s in
      with_timers (k_tstatus s) true (k_pending s) s
    else
      let s := with_votes (add frm (k_same s)) (set frm None (k_proofs s)) s in
      let s := if e_seqNo e =? ls_size m then with_keys (set frm (ls_view m, ls_pp m) (k_keys s)) s else s in
      if negb (is_catchup_needed s) then finish_no_catchup e s else s.

  (** [sizes.sort(reverse=True)] *)
  Fixpoint insert_rev (x : nat) (l : list nat) : list nat :=
    match l with [] => [x] | y :: l' => if y <=? x then x :: l else y :: insert_rev x l' end.
  Definition sort_rev (l : list nat) : list nat := fold_right insert_rev [] l.

  (** lines 273-298 [_try_asking_for_cons_proofs_without_timeout] *)
  Definition try_asking (e : env) (s : st) : st * res unit :=
    if k_asked s then (s, Ok tt)
    else if length (k_proofs s) <? k_n s - q_f (q s) - 1 then (s, Ok tt)
    else
      let sizes := sort_rev (map (fun '(_, p) => match p with Some c => c_end c | None => e_size e end) (k_proofs s)) in
      match nth_error sizes (q_f (q s)) with
      | None => (s, Err IndexError)
      | Some end_ =>
        if end_ <=? e_size e then (s, Ok tt)
        else (with_asked (emit (LAskProof (e_size e) end_ (e_eligible e)) s), Ok tt)
      end.

  (** lines 300-301 [_should_schedule_reask_cons_proofs] *)
  Definition should_schedule (s : st) : bool :=
    length (filter (fun '(_, p) => match p with Some _ => true | None => false end) (k_proofs s)) =? q_f (q s) + 1.

  (** lines 88-109, 187-213 [process_consistency_proof] *)
  Definition process_consistency_proof (e : env) (c : cproof) (frm : nat) (s : st) : st :=
    if negb (c_ledger c =? lid) then s
    else if negb (k_working s) then s
    else if e_size e <? c_start c then emit LDiscard s
    else if c_end c <=? c_start c then emit LDiscard s
    else
      let s := with_votes (k_same s) (set frm (Some c) (k_proofs s)) s in
      if negb (is_catchup_needed s) then finish_no_catchup e s
      else
        match try_asking e s with
        | (s, Err x) => emit (LRaise x) s
        | (s, Ok _) =>
          let s := if should_schedule s then with_timers false false true s else s in
          match get_cons_proof_for_catchup e s with
          | None => s
          | Some cp => finish (Some cp) s
          end
        end.

  (** ** Timers *)

  (** lines 372-376 [_reask_for_ledger_status] *)
  Definition reask_for_ledger_status (e : env) (s : st) : st :=
    emit (LAskStatus (Some (filter (fun n => negb (existsb (Nat.eqb n) (k_same s)) && negb (n =? e_self e)) (e_names e)))) s.
  (** lines 378-383 [_reask_for_last_consistency_proof] *)
  Definition reask_for_last_consistency_proof (e : env) (s : st) : st :=
    emit (LStatus (my_status e)
      (filter (fun n => negb (existsb (Nat.eqb n) (map fst (k_proofs s))) && negb (n =? e_self e)) (e_names e))) s.

  (** lines 418-426 [_get_consistency_proof_request_params]: the median by the highest
      count; [sorted] is stable *)
  Fixpoint insert_asc {A} (x : A * nat) (l : list (A * nat)) : list (A * nat) :=
    match l with
    | [] => [x]
    | y :: l' => if snd x <=? snd y then x :: l else y :: insert_asc x l'
    end.
  Definition request_params (e : env) (gs : list ((nat * nat) * list (cproof * nat))) : option (nat * nat) :=
    let sorted := fold_right insert_asc [] (map (fun '(r, g) => (r, fold_right Nat.max 0 (map snd g))) gs) in
    match nth_error sorted (Nat.div2 (length gs)) with
    | Some ((_, b), _) => Some (e_size e, b)
    | None => None
    end.
  (** lines 385-416 [_request_CPs_if_needed] *)
  Definition request_CPs_if_needed (e : env) (s : st) : st :=
    if negb (k_working s) then s
    else if length (k_proofs s) =? 0 then s
    else if negb (is_catchup_needed s) then s
    else
      let '(gs, nulls) := group (k_proofs s) in
      if is_reached (ledger_status (q s)) nulls || (length gs =? 0) then s
      else match latest_reliable e s gs with
           | Some _ => s
           | None => match request_params e gs with
                     | None => emit (LRaise IndexError) s
                     | Some (a, b) => emit (LAskProof a b (e_eligible e)) s
                     end
           end.

  (** ** Histories *)

  (** Whatever happens to the service. A timer acts only if it is running; the one-shot
      timer of lines 437-440 is no longer pending when it has acted. *)
  Inductive op :=
  | OStart (request : bool)
  | OStatus (m : lstatus) (frm : nat)
  | OProof (c : cproof) (frm : nat)
  | OTimerStatus
  | OTimerProof
  | OTimerCPs.

  Definition step (s : st) (eo : env * op) : st :=
    let '(e, o) := eo in
    match o with
    | OStart r => start e r s
    | OStatus m frm => process_ledger_status e m frm s
    | OProof c frm => process_consistency_proof e c frm s
    | OTimerStatus => if k_tstatus s then reask_for_ledger_status e s else s
    | OTimerProof => if k_tproof s then reask_for_last_consistency_proof e s else s
    | OTimerCPs => if k_pending s then request_CPs_if_needed e (with_timers (k_tstatus s) (k_tproof s) false s) else s
    end.
  Definition run (os : list (env * op)) (s : st) : st := fold_left step os s.
End Service.
