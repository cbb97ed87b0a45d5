(** What users expect of identities and of the authentication of requests (C62-C64). *)
From Coq Require Import List Arith Bool ZArith.
From Verif Require Import Nym_Model.
Import ListNotations.

(** ** C62 *)
(** a request carries a signature [s] made for [d] *)
Definition carries (q : request) (d : did) (s : nat) : Prop := (q_idr q = Some d /\ q_sig q = Some s) \/ In (d, s) (sigs_of q).
(** those a request claims to come from: its author (one identifier, or all signers), its endorser, and
    everybody named with a signature *)
Definition named (q : request) (d : did) : Prop := In d (author q) \/ q_endorser q = Some d \/ exists s, In (d, s) (sigs_of q).
Definition is_query (q : request) : bool := match q_op q with OQuery _ => true | _ => false end.

Section Spec.
  Variable long : did -> bool.
  Variable own : did -> nat.
  Variable join : did -> nat -> nat.
  Variable verifies : nat -> nat -> request -> bool.
  Variable digest : list did * option nat * option (list (did * nat)) * option did * op * nat -> nat.
  Variable threshold : Z.
  Notation did_key := (did_key long own join).
  Notation run := (run long own join verifies digest threshold).

  (** the key a node has for an identifier when it looks at a request: that of its table of clients, else
      that of the uncommitted state, else, for a NYM request about its own author, the key in it *)
  Inductive key_for (n : node) (q : request) (d : did) (k : nat) : Prop :=
  | K_client : get d (n_clients n) = Some k -> key_for n q d k
  | K_state r v : get d (n_clients n) = None -> get d (head n) = Some r -> r_key r = Some v -> did_key d (Some v) = Some k -> key_for n q d k
  | K_new o v : get d (n_clients n) = None -> get d (head n) = None -> q_op q = ONym o -> q_idr q = Some (o_dest o) ->
      o_key o = Some (Some v) -> did_key d (Some v) = Some k -> key_for n q d k.
  (** everybody a request claims to come from has signed it *)
  Definition signed (n : node) (q : request) : Prop :=
    forall d, named q d -> exists s k, carries q d s /\ key_for n q d k /\ verifies k s (unsigned q) = true.

  Definition requests (es : list event) : list request := flat_map (fun e => match e with ERequest q => [q] | _ => [] end) es.
  Definition no_collision (qs : list request) : Prop :=
    forall a b, In a qs -> In b qs -> digest (content a) = digest (content b) -> content a = content b.

  (** ** C63 *)
  (** the transactions of a ledger after the genesis ones were all written by stewards *)
  Definition by_stewards (g l : list txn) : Prop :=
    forall a x b, l = a ++ x :: b -> length g <= length a -> exists d r, x_from x = [d] /\ get d (state_of a) = Some r /\ r_role r = STEWARD.
  (** how many stewards there are *)
  Definition stewards (s : state) : nat := length (filter (fun p => role_eqb (r_role (snd p)) STEWARD) s).
  (** catch-up brings transactions the pool accepted *)
  Definition caught_by_steward (n : node) (e : event) : Prop :=
    match e with ECaught x => exists d r, x_from x = [d] /\ get d (head n) = Some r /\ r_role r = STEWARD | _ => True end.
  (** nothing is reverted, no restart finds its state, catch-up keeps to the threshold *)
  Definition calm (n : node) (e : event) : Prop :=
    match e with
    | EReject => False
    | ERestart b => b = true
    | ECaught x => role_eqb (o_role (x_op x)) STEWARD = true -> (Z.of_nat (stewards (head n)) < threshold)%Z
    | _ => True
    end.
  Fixpoint along (P : node -> event -> Prop) (n : node) (es : list event) : Prop :=
    match es with [] => True | e :: es' => P n e /\ match step long own join verifies digest threshold n e with Some m => along P m es' | None => True end end.

  (** ** C64 *)
  Definition ledger (n : node) : list txn := n_com n ++ concat (n_bs n).
  (** all transactions about [d] give the key [v] *)
  Definition never_changed (l : list txn) (d : did) (v : vkey) : Prop := forall x, In x l -> o_dest (x_op x) = d -> o_key (x_op x) = Some (Some v).
  (** a transaction from which a key can be made for the identity *)
  Definition keyed (x : txn) : Prop := did_key (o_dest (x_op x)) (match o_key (x_op x) with Some k => k | None => None end) <> None.
  Definition all_keyed (es : list event) : Prop :=
    forall e, In e es -> match e with EBatch xs => forall x, In x xs -> keyed x | ECaught x => keyed x | _ => True end.
  (** the key of the first transaction about [d] with no role or that of a steward or trustee *)
  Definition plain (x : txn) : bool := role_eqb (o_role (x_op x)) STEWARD || role_eqb (o_role (x_op x)) TRUSTEE || role_eqb (o_role (x_op x)) None.
  Definition first_key (d : did) (l : list txn) : option nat :=
    match find (fun x => (o_dest (x_op x) =? d) && plain x) l with
    | Some x => did_key d (match o_key (x_op x) with Some k => k | None => None end)
    | None => None
    end.
End Spec.
