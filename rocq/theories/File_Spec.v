(** What a log kept in files is meant to be: the list of what was put since it was emptied. *)
From Coq Require Import List Arith Bool.
Import ListNotations.
From Verif Require Import File_Model.

(** the records put since the last [Reset], in order *)
Definition put_by (l : list (bytes * bytes)) (o : op) : list (bytes * bytes) :=
  match o with Put k v => l ++ [(k, v)] | Crash _ _ _ => l | Reset => [] end.
Definition logged (os : list op) : list (bytes * bytes) := fold_left put_by os [].
Definition no_crash (os : list op) : Prop := forall k v n, ~ In (Crash k v n) os.

(** [sep] is found in [x] followed by [sep] at the end only *)
Definition apart (sep x : bytes) : Prop := forall a b, x ++ sep = a ++ sep ++ b -> b = [].
(** a record of which keys, values and separators cannot be confused *)
Definition plain (c : cfg) (r : bytes * bytes) : Prop :=
  if line_no c then apart (line_sep c) (snd r) else apart (line_sep c) (fst r ++ delim c ++ snd r) /\ apart (delim c) (fst r).
(** the length of the records [l] in the file *)
Definition extent (c : cfg) (l : list (bytes * bytes)) : nat := length (concat (map (fun r => record_of c (fst r) (snd r)) l)).
(** no record ends where one read of the file ends *)
Definition uneven (c : cfg) (l : list (bytes * bytes)) : Prop := forall l1 l2, l = l1 ++ l2 -> l1 <> [] -> extent c l1 mod buf c <> 0.
(** the settings of a file that can be used at all *)
Definition usable (c : cfg) : Prop := line_sep c <> [] /\ delim c <> [] /\ content_hash c = false /\ 0 < buf c.

(** [v] is the value put last for [k] *)
Definition newest {K V} (l : list (K * V)) (k : K) (v : V) : Prop := exists l1 l2, l = l1 ++ (k, v) :: l2 /\ ~ In k (map fst l2).

(** the records of a directory: those put since the last [CReset] *)
Definition cput_by {V} (l : list V) (o : cop V) : list V := match o with CPut v => l ++ [v] | CReset => [] | _ => l end.
Definition clogged {V} (os : list (cop V)) : list V := fold_left cput_by os [].
(** an operation that asks for nothing beyond the [n] records there are *)
Definition within {V} (n : nat) (o : cop V) : Prop :=
  match o with
  | CGet k => k <= n
  | CRange b e => match e with Some e => e <= n | None => True end /\ match b with Some b => b <= n | None => True end
  | _ => True
  end.
Fixpoint all_within {V} (l : list V) (os : list (cop V)) : Prop :=
  match os with [] => True | o :: os' => within (length l) o /\ all_within (cput_by l o) os' end.
(** the records with numbers from [b] to [e] *)
Definition numbered {V} (l : list V) (b e : nat) : list (nat * V) := filter (fun x => (b <=? fst x) && (fst x <=? e)) (combine (seq 1 (length l)) l).
