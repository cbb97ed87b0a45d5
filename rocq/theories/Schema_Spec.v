(** Specification for C78 and C79: what a well-formed value is. *)
From Coq Require Import Ascii String List Arith Bool ZArith.
From Verif Require Import Schema_Model.
Import ListNotations.
Local Open Scope Z_scope.

(** Python's integers: a bool is one *)
Definition is_int (v : value) (n : Z) : Prop := v = VInt n \/ (v = VBool true /\ n = 1) \/ (v = VBool false /\ n = 0).

(** ** Base 58 *)
(** the number written with the digits of the alphabet *)
Inductive number : str -> Z -> Prop :=
  | num_nil : number [] 0
  | num_snoc x n c d : number x n -> nth_error alphabet d = Some c -> number (x ++ [c]) (n * 58 + Z.of_nat d).
(** [x] stands for [n] bytes: as many zero bytes as it has leading '1's, then the bytes of the number *)
Definition b58_bytes (x : str) (n : Z) : Prop :=
  exists k rest v m, x = repeat 49%nat k ++ rest /\ (forall r, rest <> 49%nat :: r) /\ number rest v /\
    ((v = 0 /\ m = 0) \/ (0 < m /\ 256 ^ (m - 1) <= v < 256 ^ m)) /\ n = Z.of_nat k + m.
Definition base58_of (lens : option (list Z)) (x : str) : Prop :=
  (forall c, In c x -> In c alphabet) /\ forall ls, lens = Some ls -> exists n, In n ls /\ b58_bytes x n.

Definition hex_char (c : nat) : Prop := (48 <= c <= 57 \/ 65 <= c <= 70 \/ 97 <= c <= 102)%nat.

(** ** Messages *)
(** the value of a key that is there and not null *)
Definition present (k : string) (d : dict) (v : value) : Prop := find (s k) d = Some v /\ v <> VNull.
Definition non_empty (k : string) (d : dict) : Prop := exists v, find (s k) d = Some v /\ truthy v = true.
Definition signed_by (d : dict) (v : value) : Prop :=
  exists x m y, v = VStr x /\ find (s "signatures") d = Some (VDict m) /\ In (x, y) m.
Definition wf_extra (e : extra) (d : dict) : Prop :=
  match e with
  | ENone => True
  | ENodeData =>
    (forall k, In k ha_fields -> find k d <> None) \/ (forall k, In k ha_fields -> find k d = None)
  | ERequest =>
    ~ (non_empty "signatures" d /\ non_empty "signature" d) /\
    (forall en, present "endorser" d en -> signed_by d en /\ exists idr, present "identifier" d idr /\ signed_by d idr) /\
    (forall idr, present "identifier" d idr -> truthy idr = true -> non_empty "signatures" d -> signed_by d idr) /\
    (non_empty "identifier" d \/ non_empty "signatures" d)
  end.

Section Spec.
  Variable ip_ok : str -> bool.
  Variable to_int : str -> option Z.
  Variable ledger_ids : list Z.

  Definition nonneg (v : value) : Prop := exists n, is_int v n /\ 0 <= n.
  Definition string_upto (max : Z) (v : value) : Prop := exists x, v = VStr x /\ x <> [] /\ Z.of_nat (length x) <= max.
  Definition nonempty_str (v : value) : Prop := exists x, v = VStr x /\ x <> [].
  Definition ledger_id (v : value) : Prop := exists n, is_int v n /\ In n ledger_ids.
  Definition hash32 (v : value) : Prop := exists x, v = VStr x /\ base58_of (Some [32]) x.
  Definition time (v : value) : Prop := exists n, is_int v n /\ 1499906902 <= n.
  Definition batch_id (v : value) : Prop :=
    exists a b c d, nonneg a /\ nonneg b /\ nonneg c /\ nonempty_str d /\
      (v = VList [a; b; c; d] \/
       exists m, v = VDict m /\ length m = 4%nat /\ (forall k x, In (k, x) m -> In k batch_id_fields) /\
         find (s "view_no") m = Some a /\ find (s "pp_view_no") m = Some b /\ find (s "pp_seq_no") m = Some c /\
         find (s "pp_digest") m = Some d).
  Definition multi_sig (v : value) : Prop :=
    exists sig l a b c d e, v = VList [VStr sig; VList l; VList [a; b; c; d; e]] /\
      sig <> [] /\ Z.of_nat (length sig) <= 512 /\ l <> [] /\ (forall x, In x l -> nonempty_str x) /\
      ledger_id a /\ hash32 b /\ hash32 c /\ hash32 d /\ time e.

  (** What a field of each kind may hold *)
  Fixpoint wf (f : field) (v : value) {struct f} : Prop :=
    let 'mkField _ nullable k := f in wf_kind nullable k v
  with wf_kind (nullable : bool) (k : kind) (v : value) {struct k} : Prop :=
    match k with
    | KMsg sc e =>
      exists d, v = VDict d /\
        (fix all (sc : list (str * field)) : Prop :=
           match sc with
           | [] => True
           | (m, f) :: q =>
             (is_optional f = false -> find m d <> None) /\ (forall x, In (m, x) d -> wf f x) /\ all q
           end) sc /\
        wf_extra e d
    | KOperation ops =>
      exists d t, v = VDict d /\ present "type" d t /\ hashable t = true /\
        (fix all (ops : list (str * field)) : Prop :=
           match ops with [] => True | (n, f) :: q => (t = VStr n -> wf f v) /\ all q end) ops
    | _ => (nullable = true /\ v = VNull) \/
      match k with
      | KAny => True
      | KBool => exists b, v = VBool b
      | KInt => exists n, is_int v n
      | KNonEmpty => nonempty_str v
      | KStr max e => exists x, v = VStr x /\ (e = false -> x <> []) /\ Z.of_nat (length x) <= max
      | KSignature max => v = VNull \/ string_upto max v
      | KRole => v = VNull \/ exists x, v = VStr x
      | KNonNeg => nonneg v
      | KConst x => v = VStr x
      | KIter f => exists l, v = VList l /\ forall x, In x l -> wf f x
      | KMap kf vf => exists d, v = VDict d /\ forall x y, In (x, y) d -> wf kf (VStr x) /\ wf vf y
      | KAnyMap => exists d, v = VDict d
      | KPort => exists n, is_int v n /\ 1 <= n <= 65535
      | KIp => exists x, v = VStr x /\ ip_ok x = true /\ ~ In x zero_addresses
      | KChoose _ xs => exists x, v = VStr x /\ In x xs
      | KLedgerId => ledger_id v
      | KBase58 lens => exists x, v = VStr x /\ base58_of lens x
      | KVerkey => exists x, v = VStr x /\ (base58_of (Some [32]) x \/ exists r, x = 126%nat :: r /\ base58_of (Some [16]) r)
      | KTimestamp => time v
      | KSerialized => exists x, v = VStr x /\ (nullable = false -> x <> [])
      | KSeqNo => exists n, is_int v n /\ 1 <= n
      | KSha256 => exists h, (v = VStr h \/ v = VStr (h ++ [10%nat])) /\ length h = 64%nat /\ forall c, In c h -> hex_char c
      | KNumStr => nonneg v \/ exists x n, v = VStr x /\ to_int x = Some n /\ 0 <= n
      | KLedgerInfo => exists a b c, v = VList [a; b; c] /\ ledger_id a /\ nonneg b /\ hash32 c
      | KMultiSig => multi_sig v
      | KProtocol => is_int v 2
      | KBatchId => batch_id v
      | KViewChange => exists a b, v = VList [a; b] /\ nonempty_str a /\ string_upto 512 b
      | KMsg _ _ | KOperation _ => False
      end
    end.

  (** Every field the schema requires is there, and every field of the schema that is there holds what it may hold. *)
  Definition well_formed (sc : schema) (d : dict) : Prop :=
    forall m f, In (m, f) sc -> (is_optional f = false -> find m d <> None) /\ forall x, In (m, x) d -> wf f x.
  (** The same for keyword arguments: in Python none can be called self. *)
  Definition well_made (sc : schema) (d : dict) : Prop := find (s "self") d = None /\ well_formed sc d.
  (** What some classes require besides *)
  Definition wf_post (p : post) (d : dict) : Prop :=
    match p with
    | PNone => True
    | PPrePrepare => forall l, find (s "blsMultiSigs") d = Some (VList l) -> ~ In VNull l
    | PViewChange => forall l c, find (s "checkpoints") d = Some (VList l) -> In (VDict c) l -> well_made checkpoint c
    | PNewView => forall c, find (s "checkpoint") d = Some (VDict c) -> well_made checkpoint c
    | PObserved => exists m, find (s "msg") d = Some (VDict m) /\ well_made batch_committed m
    end.
End Spec.

(** No schema names a field twice. *)
Fixpoint nodupb (l : list str) : bool := match l with [] => true | x :: r => negb (existsb (str_eqb x) r) && nodupb r end.
Fixpoint proper (f : field) : bool := let 'mkField _ _ k := f in proper_kind k
with proper_kind (k : kind) : bool :=
  match k with
  | KIter f => proper f
  | KMap kf vf => proper kf && proper vf
  | KMsg sc _ => nodupb (map fst sc) && (fix all (sc : list (str * field)) : bool := match sc with [] => true | (_, f) :: q => proper f && all q end) sc
  | KOperation ops => nodupb (map fst ops) && (fix all (sc : list (str * field)) : bool := match sc with [] => true | (_, f) :: q => proper f && all q end) ops
  | _ => true
  end.
