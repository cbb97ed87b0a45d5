(** Model of the serializer without field names: common/serializers/compact_serializer.py:7-78.
    A text is a list of characters.  A record is a dictionary from field names to values; a dotted name "a.b" of the code is a
    path into nested dictionaries, here one name with the flag [dotted] (simplified: no field's path is the beginning of
    another's, so nested dictionaries and dictionaries over paths are the same).  Encoders and decoders are variables. *)
From Coq Require Import Ascii List Arith Bool.
Import ListNotations.

Definition text := list ascii.
(** a name of a field, and whether there is a dot in it *)
Record field := Field { fname : nat; dotted : bool }.
Section Compact.
Variable V : Type.
(** 18: the delimiter *)
Variable delim : ascii.
(** 24, 31: the functions of the field, [str] by default *)
Variable enc : nat -> V -> text.
Variable dec : nat -> text -> V.

(** a dictionary; a value can be None *)
Definition dict := list (nat * option V).
(** 42-48: data.get(name), {} or None when it is missing *)
Fixpoint get (d : dict) (n : nat) : option V :=
  match d with [] => None | (m, v) :: q => if m =? n then v else get q n end.
(** result[name] = v *)
Fixpoint put (d : dict) (n : nat) (v : option V) : dict :=
  match d with [] => [(n, v)] | (m, w) :: q => if m =? n then (m, v) :: q else (m, w) :: put q n v end.
(** 20-25 [_stringify] *)
Definition stringify (n : nat) (v : option V) : text := match v with None => [] | Some v => enc n v end.
(** 27-32 [_destringify] *)
Definition destringify (n : nat) (t : text) : option V := match t with [] => None | _ => Some (dec n t) end.
(** str.join *)
Fixpoint join (l : list text) : text :=
  match l with [] => [] | [t] => t | t :: q => t ++ delim :: join q end.
(** str.split: never empty *)
Fixpoint split (t : text) : list text :=
  match t with
  | [] => [[]]
  | c :: q => if Ascii.eqb c delim then [] :: split q else match split q with h :: r => (c :: h) :: r | [] => [[c]] end
  end.
(** 34-54 [serialize]; bytes and texts are the same here *)
Definition serialize (fs : list field) (d : dict) : text := join (map (fun f => stringify (fname f) (get d (fname f))) fs).
(** 62-77: the loop of [deserialize]; [None]: pop from an empty list (IndexError) *)
Fixpoint read (fs : list field) (items : list text) (r : dict) : option dict :=
  match fs with
  | [] => Some r
  | f :: q =>
      match items with
      | t :: rest => read q rest (put r (fname f) (destringify (fname f) t))
      | [] => if dotted f then None else read q [] (put r (fname f) None)
      end
  end.
(** 56-78 [deserialize] *)
Definition deserialize (fs : list field) (t : text) : option dict := read fs (split t) [].
End Compact.
