(** Model of storage/optimistic_kv_store.py over a key-value store. *)
From Coq Require Import List Arith Bool.
From Verif Require Import Base.
Import ListNotations.
Local Open Scope res_scope.

Section OptKV.
  (** Keys are byte strings in the code; [remove] also accepts str and encodes it (line 70-71),
      which is not modelled. *)
  Context {K V I : Type} (eqd : forall x y : K, {x = y} + {x <> y}).

  (** A persistent store or a Python dict: one entry per key, in insertion order. *)
  Definition dict := list (K * V).
  Fixpoint dget (m : dict) (k : K) : option V :=
    match m with
    | [] => None
    | (k', v) :: m' => if eqd k' k then Some v else dget m' k
    end.
  Fixpoint dput (m : dict) (k : K) (v : V) : dict :=
    match m with
    | [] => [(k, v)]
    | (k', v') :: m' => if eqd k' k then (k', v) :: m' else (k', v') :: dput m' k v
    end.
  Definition ddel (m : dict) (k : K) : dict := filter (fun p => if eqd (fst p) k then false else true) m.
  (** KeyValueStorage.setBatch: the pairs are put in order *)
  Definition setBatch_store (m : dict) (b : list (K * V)) : dict :=
    fold_left (fun m p => dput m (fst p) (snd p)) b m.
  (** OrderedDict(list of pairs) *)
  Definition mk_dict (b : list (K * V)) : dict := setBatch_store [] b.

  (** lines 17-28 *)
  Record okv := mkOkv { o_store : dict; o_un_committed : list (I * dict); o_current : list (K * V) }.

  (** lines 30-32 *)
  Definition create_batch_from_current (s : okv) (batch_idr : I) : okv :=
    mkOkv (o_store s) (o_un_committed s ++ [(batch_idr, mk_dict (o_current s))]) [].
  (** lines 34-39 *)
  Definition reject_batch (s : okv) : res okv :=
    match o_un_committed s with
    | [] => Err LogicError
    | _ => Ok (mkOkv (o_store s) (removelast (o_un_committed s)) [])
    end.
  (** lines 41-50 *)
  Definition commit_batch (s : okv) : res (I * okv) :=
    match o_un_committed s with
    | (idr, b) :: rest => Ok (idr, mkOkv (setBatch_store (o_store s) b) rest (o_current s))
    | [] => Err ValueError
    end.

  (** lines 52-63 *)
  Definition store_get (s : okv) (k : K) : res V :=
    match dget (o_store s) k with Some v => Ok v | None => Err KeyError end.
  Fixpoint find_current (ops : list (K * V)) (k : K) : option V :=
    match ops with
    | [] => None
    | (k', v) :: ops' => if eqd k' k then Some v else find_current ops' k
    end.
  Fixpoint find_batches (bs : list (I * dict)) (k : K) : option V :=
    match bs with
    | [] => None
    | (_, b) :: bs' => match dget b k with Some v => Some v | None => find_batches bs' k end
    end.
  Definition get (s : okv) (k : K) (is_committed : bool) : res V :=
    if is_committed then store_get s k else
    match find_current (rev (o_current s)) k with
    | Some v => Ok v
    | None =>
      match find_batches (rev (o_un_committed s)) k with
      | Some v => Ok v
      | None => store_get s k
      end
    end.

  (** lines 65-69 *)
  Definition set (s : okv) (k : K) (v : V) (is_committed : bool) : okv :=
    if is_committed then mkOkv (dput (o_store s) k v) (o_un_committed s) (o_current s)
    else mkOkv (o_store s) (o_un_committed s) (o_current s ++ [(k, v)]).

  (** lines 71-78; the filter keeps the entries of the removed key *)
  Definition remove (s : okv) (k : K) (is_committed : bool) : okv :=
    if is_committed then mkOkv (ddel (o_store s) k) (o_un_committed s) (o_current s)
    else mkOkv (o_store s) (o_un_committed s)
               (filter (fun p => if eqd (fst p) k then true else false) (o_current s)).

  (** lines 80-85 *)
  Definition first_batch_idr (s : okv) : option I :=
    match o_un_committed s with (i, _) :: _ => Some i | [] => None end.

  (** lines 87-92 *)
  Definition setBatch (s : okv) (b : list (K * V)) (is_committed : bool) : okv :=
    if is_committed then mkOkv (setBatch_store (o_store s) b) (o_un_committed s) (o_current s)
    else fold_left (fun s p => set s (fst p) (snd p) false) b s.

  (** lines 94-104 *)
  Inductive kop := Write (k : K) (v : V) | Remove (k : K).
  Definition do_ops_in_batch (s : okv) (b : list kop) (is_committed : bool) : okv :=
    fold_left (fun s o => match o with
                          | Write k v => set s k v is_committed
                          | Remove k => remove s k is_committed
                          end) b s.
End OptKV.
Arguments okv : clear implicits.
Arguments dict : clear implicits.
Arguments kop : clear implicits.
