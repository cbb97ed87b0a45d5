(** Model of version strings: common/version.py:145-217 (PEP440VersionFallback, used when the package "packaging" is not installed),
    220-277 (PEP440BasedVersion), 280-314 (DigitDotVersion), 317-351 (PlenumVersion).  Texts are lists of characters.
    Only the fallback parser is modelled, so there is no epoch, post-release or local part; the check for spaces around the
    text (69-76) is left out (the expression would not match them). *)
From Coq Require Import Ascii Decimal List Arith Bool.
Import ListNotations.
Open Scope char_scope.

Definition text := list ascii.
(** 149: the phases *)
Inductive phase := Dev | RC | A | B.
(** 164-166: the tuple kept *)
Record version := Version { major : nat; minor : nat; patch : nat; pre : option (phase * nat) }.

(** [0-9] *)
Definition digit (c : ascii) : option (uint -> uint) :=
  if Ascii.eqb c "0" then Some D0 else if Ascii.eqb c "1" then Some D1 else if Ascii.eqb c "2" then Some D2 else if Ascii.eqb c "3" then Some D3
  else if Ascii.eqb c "4" then Some D4 else if Ascii.eqb c "5" then Some D5 else if Ascii.eqb c "6" then Some D6 else if Ascii.eqb c "7" then Some D7
  else if Ascii.eqb c "8" then Some D8 else if Ascii.eqb c "9" then Some D9 else None.
(** [0-9]* at the beginning, as much as there is *)
Fixpoint span (s : text) : uint * text :=
  match s with
  | [] => (Nil, [])
  | c :: q => match digit c with Some f => let (u, r) := span q in (f u, r) | None => (Nil, s) end
  end.
(** 149, 164-165: ([0-9]+) and int *)
Definition number (s : text) : option (nat * text) :=
  match span s with (Nil, _) => None | (u, r) => Some (Nat.of_uint u, r) end.
(** \. *)
Definition dot (s : text) : option text := match s with c :: q => if Ascii.eqb c "." then Some q else None | [] => None end.
(** \.? *)
Definition dot_opt (s : text) : text := match dot s with Some q => q | None => s end.
(** (dev|rc|a|b) *)
Definition phase_name (p : phase) : text := match p with Dev => ["d"; "e"; "v"] | RC => ["r"; "c"] | A => ["a"] | B => ["b"] end.
Fixpoint strip (p s : text) : option text :=
  match p, s with
  | [], _ => Some s
  | c :: p', d :: s' => if Ascii.eqb c d then strip p' s' else None
  | _, [] => None
  end.
Definition get_phase (s : text) : option (phase * text) :=
  match strip (phase_name Dev) s with Some r => Some (Dev, r) | None =>
  match strip (phase_name RC) s with Some r => Some (RC, r) | None =>
  match strip (phase_name A) s with Some r => Some (A, r) | None =>
  match strip (phase_name B) s with Some r => Some (B, r) | None => None end end end end.
(** 149, 157-167: the whole text has to match *)
Definition parse (s : text) : option version :=
  match number s with None => None | Some (a, s) =>
  match dot s with None => None | Some s =>
  match number s with None => None | Some (b, s) =>
  match dot s with None => None | Some s =>
  match number s with None => None | Some (c, s) =>
  match s with
  | [] => Some (Version a b c None)
  | _ =>
      match get_phase (dot_opt s) with None => None | Some (p, s) =>
      match number (dot_opt s) with
      | Some (n, []) => Some (Version a b c (Some (p, n)))
      | _ => None
      end end
  end end end end end end.

(** str of a number *)
Fixpoint digits (u : uint) : text :=
  match u with
  | Nil => [] | D0 u => "0" :: digits u | D1 u => "1" :: digits u | D2 u => "2" :: digits u | D3 u => "3" :: digits u | D4 u => "4" :: digits u
  | D5 u => "5" :: digits u | D6 u => "6" :: digits u | D7 u => "7" :: digits u | D8 u => "8" :: digits u | D9 u => "9" :: digits u
  end.
Definition str (n : nat) : text := digits (Nat.to_uint n).
(** 179-181 [base_version] *)
Definition base (v : version) : text := str (major v) ++ "." :: str (minor v) ++ "." :: str (patch v).
(** 203-209 [dev], [is_devrelease] *)
Definition dev (v : version) : option nat := match pre v with Some (Dev, n) => Some n | _ => None end.
(** 169-177 [public], 246-251 [full]: a dot if [dev] is true, that is neither None nor 0 *)
Definition full (v : version) : text :=
  base v ++ match pre v with
            | None => []
            | Some (p, n) => (match dev v with None | Some 0 => [] | Some _ => ["."] end) ++ phase_name p ++ str n
            end.
(** 194-197 [pre] *)
Definition pre_release (v : version) : option (phase * nat) := match pre v with Some (Dev, _) => None | x => x end.

(** 280-305 [DigitDotVersion]: [self._version.dev or self._version.pre]; [parts_num]: the numbers of parts allowed, none given: any *)
Definition digit_dot (parts_num : list nat) (v : version) : bool :=
  negb (match dev v with None | Some 0 => false | Some _ => true end || match pre_release v with None => false | Some _ => true end) &&
  match parts_num with [] => true | _ => existsb (Nat.eqb 3) parts_num end.
(** 317-341 [PlenumVersion] *)
Definition plenum_version (v : version) : bool :=
  match pre_release v with Some (RC, _) => true | Some _ => false | None => true end.
