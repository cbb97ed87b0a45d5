(** Model of common/serializers/signing_serializer.py and of the request and batch digests
    computed from it (plenum/common/request.py:83-127, ordering_service.py:2313-2315). *)
From Coq Require Import List NArith ZArith Bool Ascii String Decimal DecimalString.
From Verif Require Import Base.
Import ListNotations.
Local Open Scope list_scope.

(** Python str: a list of code points. *)
Definition str := list N.
Fixpoint of_string (s : string) : str :=
  match s with
  | EmptyString => []
  | String a s' => N_of_ascii a :: of_string s'
  end.

(** The accepted types (signing_serializer.py:32), except float; bool is an int in Python. *)
Inductive obj :=
| PNone
| PStr (s : str)
| PInt (z : Z)
| PBool (b : bool)
| PList (l : list obj)
| PDict (d : list (str * obj)).   (* in insertion order; keys are distinct str *)

(** [str(z)] *)
Definition str_int (z : Z) : str := of_string (NilZero.string_of_int (Z.to_int z)).

Definition colon : N := 58.
Definition bar : N := 124.
Definition comma : N := 44.

(** [sep.join(strs)] *)
Fixpoint join (sep : N) (l : list str) : str :=
  match l with
  | [] => []
  | [x] => x
  | x :: l' => x ++ sep :: join sep l'
  end.

(** Comparison of strings by code points *)
Fixpoint str_leb (a b : str) : bool :=
  match a, b with
  | [], _ => true
  | _ :: _, [] => false
  | x :: a', y :: b' => if N.eqb x y then str_leb a' b' else N.ltb x y
  end.
(** [keys.sort()], carrying the values along *)
Fixpoint insert {V} (p : str * V) (l : list (str * V)) : list (str * V) :=
  match l with
  | [] => [p]
  | q :: l' => if str_leb (fst p) (fst q) then p :: l else q :: insert p l'
  end.
Definition sort_items {V} (l : list (str * V)) : list (str * V) := fold_right insert [] l.

(** signing_serializer.py:36-92 [serialize] below the top level, before encoding *)
Fixpoint ser (o : obj) : str :=
  match o with
  | PNone => []
  | PStr s => s
  | PInt z => str_int z
  | PBool b => of_string (if b then "True" else "False")
  | PList l => join comma (map ser l)
  | PDict d =>
    join bar (map snd (sort_items (map (fun '(k, v) => (k, k ++ colon :: ser v)) d)))
  end.

(** The top level: keys to ignore are dropped from a dict. [encode('utf-8')] is injective and
    is left out. *)
Definition serialize (o : obj) (ignore : list str) : str :=
  match o with
  | PDict d => ser (PDict (filter (fun '(k, _) => negb (existsb (bytes_eqb k) ignore)) d))
  | _ => ser o
  end.

(** request.py:107-125 [signingPayloadState]; the other optional parts are entries of [extra].
    [identifier or self.identifier]: the given identifier. *)
Definition signing_payload (identifier : str) (reqId : Z) (operation : obj) (extra : list (str * obj)) : obj :=
  PDict ((of_string "identifier", PStr identifier) :: (of_string "reqId", PInt reqId)
         :: (of_string "operation", operation) :: extra).

(** ordering_service.py:2313-2315 [generate_pp_digest], before hashing *)
Definition pp_digest_input (req_digests : list str) (original_view_no pp_time : Z) : str :=
  serialize (PList (PInt original_view_no :: PInt pp_time :: map PStr req_digests)) [].

(** replica_helper.py:156-157 [replica_batch_digest], before hashing *)
Definition replica_batch_digest_input (req_digests : list str) : str := List.concat req_digests.
