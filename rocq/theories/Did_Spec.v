(** Identities and keys, without the functions of the model. *)
From Coq Require Import List NArith Bool Ascii String.
Import ListNotations.
From Verif Require Import Did_Model.
Local Open Scope N_scope.

Definition is_bytes (b : bytes) : Prop := Forall (fun x => x < 256) b.
(** An ed25519 public key. *)
Definition is_key (k : bytes) : Prop := is_bytes k /\ List.length k = 32%nat.
(** Only characters of base58. *)
Definition base58_only (s : str) : Prop := Forall (fun c => In c alphabet) s.
(** The lower case hexadecimal text of bytes. *)
Definition hex_digit (n : N) : N := if n <? 10 then 48 + n else 87 + n.
Definition hex (b : bytes) : bytes := flat_map (fun x => [hex_digit (x / 16); hex_digit (x mod 16)]) b.
