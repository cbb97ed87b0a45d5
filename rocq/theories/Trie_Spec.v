(** What the state is meant to be: a map from keys to values, a committed map, and the maps of
    earlier roots. Independent of tries. *)
From Coq Require Import List Arith NArith Bool.
From Verif Require Import Base Rlp_Model Trie_Model.
Import ListNotations.

(** ** Maps *)
Definition smap := bytes -> option bytes.
Definition smap_empty : smap := fun _ => None.
Definition smap_set (m : smap) (k : bytes) (v : option bytes) : smap :=
  fun k' => if bytes_eqb k' k then v else m k'.

(** ** Operations. A revert or commit names a root by the number of the step after which the
    client read it (0: the root before the first operation). [OCrash n o]: the process dies
    while doing [o], and the last [n] puts of [o] (at most all of them) are lost; then it is
    started again. *)
Inductive op :=
| OSet (k v : bytes)
| ORemove (k : bytes)
| OCommit (root : option nat)
| ORevert (root : nat)
| ORestart
| OCrash (n : nat) (o : op).

Record spec := mkSpec { sp_head : smap; sp_committed : smap; sp_past : list smap }.
Definition spec_init : spec := mkSpec smap_empty smap_empty [smap_empty].
Definition past (s : spec) (i : nat) : smap := nth i (sp_past s) smap_empty.

Fixpoint spec_do (s : spec) (o : op) : smap * smap :=
  let h := sp_head s in let c := sp_committed s in
  match o with
  | OSet k v => (smap_set h k (Some v), c)
  | ORemove k => (smap_set h k None, c)
  | OCommit None => (h, h)
  | OCommit (Some i) => (h, past s i)
  | ORevert i => (past s i, c)
  | ORestart => (c, c)
  | OCrash n o => let c' := if n =? 0 then snd (spec_do s o) else c in (c', c')
  end.
Definition spec_step (s : spec) (o : op) : spec :=
  let '(h, c) := spec_do s o in mkSpec h c (sp_past s ++ [h]).
Definition spec_run (ops : list op) : spec := fold_left spec_step ops spec_init.

(** Operations within the limits of the code: bytes are bytes, keys are not so long that Python's
    recursion limit is hit, sizes stay below 2^58 bytes, and only roots read earlier are named. A crash
    happens in an operation or a restart. *)
Fixpoint op_ok (limit : nat) (n_past : nat) (o : op) : Prop :=
  match o with
  | OSet k v => Forall (fun b => (b < 256)%N) k /\ 2 * length k < limit /\ (lenN k < 2 ^ 58)%N /\ (lenN v < 2 ^ 58)%N
  | ORemove k => Forall (fun b => (b < 256)%N) k /\ 2 * length k < limit
  | OCommit (Some i) | ORevert i => i < n_past
  | OCommit None => True
  | ORestart => True
  | OCrash _ o => op_ok limit n_past o /\ match o with OCrash _ _ => False | _ => True end
  end.
Fixpoint ops_ok (limit : nat) (n_past : nat) (ops : list op) : Prop :=
  match ops with [] => True | o :: ops' => op_ok limit n_past o /\ ops_ok limit (S n_past) ops' end.

Section Run.
  Variable H : bytes -> bytes.
  Variable limit : nat.

  (** No two different values were put under one key, apart from the committed root. [128] is
      the encoding of the blank node, whose hash stands for the empty state and is not put. *)
  Definition collision_free (d : kv) : Prop :=
    forall k a b, In (k, a) ((H [128%N], [128%N]) :: d) -> In (k, b) ((H [128%N], [128%N]) :: d) ->
      k <> rootHashKey -> a = b.

  (** ** Running the model. The client reads the root hash after every operation; [r_puts]
      collects all puts ever made, also those lost in a crash. *)
  Record run_state := mkRun { r_trie : trie; r_roots : list bytes; r_puts : kv }.

  Definition root_at (r : run_state) (i : nat) : bytes := nth i (r_roots r) [].
  Definition new_puts (before after : kv) : kv := firstn (length after - length before) after.
  Definition reopen (d : kv) (t : trie) : trie * res unit :=
    match open_state H d with Ok t' => (t', Ok tt) | Err e => (t, Err e) end.

  (** The trie after the operation, its result, and the puts made (also those lost) *)
  Fixpoint run_op (r : run_state) (o : op) : trie * res unit * kv :=
    let t := r_trie r in
    let done '(t', x) := (t', x, new_puts (t_kv t) (t_kv t')) in
    match o with
    | OSet k v => done (s_set H limit t k v)
    | ORemove k => done (s_remove H limit t k)
    | OCommit None => done (s_commit H t None)
    | OCommit (Some i) => done (s_commit H t (Some (root_at r i)))
    | ORevert i => done (s_revert H t (root_at r i))
    | ORestart => done (reopen (t_kv t) t)
    | OCrash n o =>
      let '(t', x, new) := run_op r o in
      let '(t'', x') := reopen (skipn n new ++ t_kv t) t in
      (t'', x', new)
    end.

  Definition step (rx : run_state * list (res unit)) (o : op) : run_state * list (res unit) :=
    let '(r, xs) := rx in
    let '(t', x, new) := run_op r o in
    let root := match get_root_hash H t' with Ok h => h | Err _ => [] end in
    (mkRun t' (r_roots r ++ [root]) (new ++ r_puts r), xs ++ [x]).
  Definition run_init : run_state :=
    match open_state H [] with
    | Ok t => mkRun t [match get_root_hash H t with Ok h => h | Err _ => [] end] (t_kv t)
    | Err _ => mkRun (mkTrie [] BLANK_NODE) [] []
    end.
  Definition run (ops : list op) : run_state * list (res unit) := fold_left step ops (run_init, []).
End Run.

(** A state value as the client sees it *)
Definition seen (v : option bytes) : res (option item) := Ok (option_map Str v).
