(** What the history of a ledger's state is: the batches committed, in order, with their times. *)
From Coq Require Import List Arith Bool Sorted.
From Verif Require Import Base Rlp_Model Trie_Model Trie_Spec Read_Model.
Import ListNotations.

Section Spec.
  Variable msig : Type.

  (** The operations on the state that the events consist of; [n] operations came before. *)
  Definition ops_of_event (n : nat) (e : event msig) : list op :=
    match e with
    | EOp o => [o]
    | EBatch i _ => [OCommit (Some i)]
    | ECaught _ => [OCommit (Some n)]
    | ELost i _ => [OCommit (Some i); ORestart]
    | ESig _ => []
    end.
  Definition ops_of (es : list (event msig)) : list op :=
    fold_left (fun ops e => ops ++ ops_of_event (length ops) e) es [].

  (** What was committed when: for each batch (or transaction caught up) its time, and the number
      of the operation after which the state had the content that was committed *)
  Fixpoint commits (n : nat) (es : list (event msig)) : list (nat * nat) :=
    match es with
    | [] => []
    | e :: es' =>
        match e with
        | EBatch i t => [(t, i)]
        | ECaught (Some t) => [(t, n)]
        | ELost i t => [(t, i)]
        | _ => []
        end ++ commits (n + length (ops_of_event n e)) es'
    end.

  (** the last one not later than [t] *)
  Fixpoint last_until (t : nat) (l : list (nat * nat)) : option (nat * nat) :=
    match l with
    | [] => None
    | c :: l' => match last_until t l' with Some c' => Some c' | None => if fst c <=? t then Some c else None end
    end.

  (** the content of the state at time [t] *)
  Definition content_at (es : list (event msig)) (t : nat) : smap :=
    match last_until t (commits 0 es) with
    | Some (_, i) => past (spec_run (ops_of es)) i
    | None => smap_empty
    end.

  (** Batches have their times in order; the process never died between committing a batch and
      remembering its time. *)
  Definition times_grow (es : list (event msig)) : Prop := StronglySorted le (map fst (commits 0 es)).
  Definition no_loss (es : list (event msig)) : Prop := forall i t, ~ In (ELost i t) es.
End Spec.
Arguments ops_of_event {msig}. Arguments ops_of {msig}. Arguments commits {msig}. Arguments content_at {msig}.
Arguments times_grow {msig}. Arguments no_loss {msig}.

(** The content of the agreement's entries: by version and latest, a digest; by digest, the text. *)
Definition taa_in (path_version path_digest : bytes -> bytes) (path_latest : bytes) (m : smap) (q : taa_query) : option bytes :=
  let text p := match m p with Some d => m (path_digest d) | None => None end in
  match q with QVersion v => text (path_version v) | QDigest d => m (path_digest d) | QTime _ | QLatest => text path_latest end.
(** and where the digest, or the text, is found *)
Definition taa_path (path_version path_digest : bytes -> bytes) (path_latest : bytes) (q : taa_query) : bytes :=
  match q with QVersion v => path_version v | QDigest d => path_digest d | QTime _ | QLatest => path_latest end.
