(** Model of the log files of a node: stp_core/common/logging/CompressingFileHandler.py (whole), with [emit] and [shouldRollover] of
    the standard library's [RotatingFileHandler].  Files are compressed by processes of their own, which may outlive the node.
    Bytes and characters are the same here, a record is written and flushed at once, and the names of other files do not match the
    pattern.  The files that are to be removed are found and removed at once. *)
From Coq Require Import List Arith Bool.
Import ListNotations.

(** a record: what it says and how long it is *)
Notation line := (nat * nat)%type.
(** [base.i], and [base.i.xz]: [None] if there is none, [Some None] if it is not complete *)
Record file := File { f_idx : nat; plain : option (list line); packed : option (option (list line)) }.
(** 88-95 [_recompress]: it works on [base.i], which it has opened (so has the content) from stage 1 on; it has written [base.i.xz] from stage 2 on *)
Record job := Job { j_idx : nat; j_data : list line; j_stage : nat }.
Record dir := Dir { files : list file (** the rotated files *); base : list line (** the current one *); jobs : list job (** processes *);
  max_index : nat; compressor : option nat (** the process that this handler started last *) }.
Definition init : dir := Dir [] [] [] 0 None.

Section Handler.
Variables max_bytes backup_count : nat.
Variable compression : bool.

Definition size (c : list line) : nat := list_sum (map snd c).
(** [RotatingFileHandler.shouldRollover] *)
Definition should (d : dir) (l : line) : bool := (0 <? max_bytes) && (max_bytes <=? size (base d) + snd l).
(** 97-106 [_remove_old_files]: it keeps [idx > max_index - backupCount + 1] *)
Definition prune (d : dir) : dir :=
  if backup_count =? 0 then d
  else Dir (filter (fun f => S (max_index d) <? f_idx f + backup_count) (files d)) (base d) (jobs d) (max_index d) (compressor d).
Definition set_packed (i : nat) (c : option (list line)) (fs : list file) : list file :=
  map (fun f => if f_idx f =? i then File i (plain f) (Some c) else f) fs.
Definition drop_plain (i : nat) (fs : list file) : list file := map (fun f => if f_idx f =? i then File i None (packed f) else f) fs.
Definition source (i : nat) (fs : list file) : option (list line) :=
  match find (fun f => f_idx f =? i) fs with Some f => plain f | None => None end.
Definition drop_job (i : nat) (js : list job) : list job := filter (fun j => negb (j_idx j =? i)) js.
(** 88-95 [_recompress], one step of the process for [i]: it opens both files (and dies if there is no source), writes and closes, removes
    the source (and dies if it is gone).  What is written to a file that was removed in between is lost. *)
Definition work (i : nat) (d : dir) : dir :=
  match find (fun j => j_idx j =? i) (jobs d) with
  | None => d
  | Some j =>
      match j_stage j with
      | 0 => match source i (files d) with
             | Some c => Dir (set_packed i None (files d)) (base d) (Job i c 1 :: drop_job i (jobs d)) (max_index d) (compressor d)
             | None => Dir (files d) (base d) (drop_job i (jobs d)) (max_index d) (compressor d)
             end
      | 1 => Dir (set_packed i (Some (j_data j)) (files d)) (base d) (Job i (j_data j) 2 :: drop_job i (jobs d)) (max_index d) (compressor d)
      | _ => Dir (drop_plain i (files d)) (base d) (drop_job i (jobs d)) (max_index d) (compressor d)
      end
  end.
(** 54-70 [_finish_compression]: waits for the process *)
Definition finish (d : dir) : dir :=
  match compressor d with
  | None => d
  | Some i => let d := work i (work i (work i d)) in Dir (files d) (base d) (jobs d) (max_index d) None
  end.
(** 32-35: the index is counted up, the file is renamed (over one that has this name) *)
Definition rename (d : dir) : dir :=
  let i := S (max_index d) in
  let fs := if existsb (fun f => f_idx f =? i) (files d)
            then map (fun f => if f_idx f =? i then File i (Some (base d)) (packed f) else f) (files d)
            else files d ++ [File i (Some (base d)) None] in
  Dir fs [] (jobs d) i (compressor d).
(** 37-40 *)
Definition start (d : dir) : dir :=
  if compression then Dir (files d) (base d) (Job (max_index d) [] 0 :: jobs d) (max_index d) (Some (max_index d)) else d.
(** 25-43 [doRollover] *)
Definition rollover (d : dir) : dir := start (rename (finish (prune d))).
(** 21-23: after a start the index is the greatest there is; the processes may have been killed too *)
Definition restart (kill : bool) (d : dir) : dir :=
  Dir (files d) (base d) (if kill then [] else jobs d) (list_max (map f_idx (files d))) None.
(** A record is logged, the process for a file goes on, the node crashes: before or after a rollover, or within one after the old files
    were removed, or after renaming *)
Inductive op := Emit (l : line) | Work (i : nat) | Crash (kill : bool) | CrashPruned (kill : bool) | CrashRenamed (kill : bool).
Definition step (d : dir) (o : op) : dir :=
  match o with
  | Emit l => let d := if should d l then rollover d else d in Dir (files d) (base d ++ [l]) (jobs d) (max_index d) (compressor d)
  | Work i => work i d
  | Crash kill => restart kill d
  | CrashPruned kill => restart kill (prune d)
  | CrashRenamed kill => restart kill (rename (finish (prune d)))
  end.
Definition run (d : dir) (os : list op) : dir := fold_left step os d.
End Handler.
