(** Model of plenum/common/signer_did.py (DidIdentity, DidSigner), plenum/common/verifier.py
    (DidVerifier) and of what they use: base58 (the library), plenum/common/util.py:326-331,
    stp_core/crypto/nacl_wrappers.py:212-230. *)
From Coq Require Import Ascii String List NArith Bool.
Import ListNotations.
Local Open Scope N_scope.

(** bytes and the codes of characters *)
Notation bytes := (list N).
Notation str := (list N).

(** * base58 (external library, here as in its release 1.0) *)
Definition alphabet : str :=
  map N_of_ascii (list_ascii_of_string "123456789ABCDEFGHJKLMNPQRSTUVWXYZabcdefghijkmnopqrstuvwxyz").
(** a list of digits in base b read as a number, most significant digit first *)
Definition num (b : N) (l : list N) : N := fold_left (fun a d => a * b + d) l 0.
(** b58encode_int: the digits of a number *)
Fixpoint digits (b : N) (fuel : nat) (n : N) : list N :=
  match fuel with
  | O => []
  | S f => if n =? 0 then [] else digits b f (n / b) ++ [n mod b]
  end.
(** lstrip of the zero byte, of the digit '1' *)
Fixpoint zeros (l : list N) : nat := match l with d :: r => if d =? 0 then S (zeros r) else O | [] => O end.
Fixpoint strip (l : list N) : list N := match l with d :: r => if d =? 0 then strip r else l | [] => [] end.
(** b58encode and b58decode: the leading zeros one by one, the rest as a number *)
Definition convert (b1 b2 : N) (l : list N) : list N :=
  let n := num b1 (strip l) in repeat 0 (zeros l) ++ digits b2 (N.size_nat n) n.

Definition char (d : N) : N := nth (N.to_nat d) alphabet 0.
Fixpoint index (c : N) (l : str) : option N :=
  match l with [] => None | x :: r => if c =? x then Some 0 else option_map N.succ (index c r) end.
Fixpoint indices (s : str) : option (list N) :=
  match s with
  | [] => Some []
  | c :: r => match index c alphabet, indices r with Some d, Some l => Some (d :: l) | _, _ => None end
  end.
(** util.py:326-327 [rawToFriendly] *)
Definition b58encode (b : bytes) : str := map char (convert 256 58 b).
(** util.py:330-331 [friendlyToRaw]; None: a character that is not in the alphabet (an error is raised) *)
Definition b58decode (s : str) : option bytes := option_map (convert 58 256) (indices s).

(** * signer_did.py *)
Definition tilde : N := 126.
(** [None] or empty is false *)
Definition given (x : option str) : option str := match x with Some (c :: r) => Some (c :: r) | _ => None end.

(** 14-52 [DidIdentity]: _identifier, _verkey, abbreviated *)
Record identity := Identity { identifier : str; i_verkey : option str; abbreviated : bool }.
(** 17-52 [__init__]; None: an error is raised *)
Definition make_identity (idr verkey : option str) (raw : option bytes) : option identity :=
  match given idr, given verkey, given raw with
  | Some i, None, None =>                                                     (* 19-26 *)
      Some (Identity i (match verkey, raw with None, None => None | _, _ => Some [] end) false)
  | _, Some _, Some _ | None, None, None => None                              (* 28-32 *)
  | Some i, None, Some r => Some (Identity i (Some (b58encode r)) false)      (* 36-38 *)
  | Some i, Some v, None =>                                                   (* 40-45 *)
      if match v with c :: _ => c =? tilde | [] => false end then Some (Identity i (Some (tl v)) true)
      else Some (Identity i (Some v) false)
  | None, v, r =>                                                             (* 46-50 *)
      match (match r with Some r => Some r | None => match v with Some v => b58decode v | None => None end end) with
      | Some raw => Some (Identity (b58encode (firstn 16 raw)) (Some (b58encode (skipn 16 raw))) true)
      | None => None
      end
  end.
(** 58-66 [verkey] *)
Definition verkey (x : identity) : option str :=
  match i_verkey x with
  | None => None
  | Some v => Some (if abbreviated x then tilde :: v else v)
  end.
(** 68-75 [full_verkey]; None: an error is raised *)
Definition full_verkey (x : identity) : option (option str) :=
  if abbreviated x then
    match b58decode (identifier x), verkey x with
    | Some a, Some v => match b58decode (tl v) with Some b => Some (Some (b58encode (a ++ b))) | None => None end
    | _, _ => None
    end
  else Some (verkey x).

(** 86-109 [DidSigner]: [key] is the public key made from the seed *)
Definition signer (idr : option str) (key : bytes) : option identity := make_identity idr None (Some key).

(** * verifier.py *)
(** libnacl's HexEncoder: binascii.unhexlify *)
Definition hex_value (c : N) : option N :=
  if (48 <=? c) && (c <=? 57) then Some (c - 48)
  else if (65 <=? c) && (c <=? 70) then Some (c - 55)
  else if (97 <=? c) && (c <=? 102) then Some (c - 87)
  else None.
Fixpoint unhex (l : bytes) : option bytes :=
  match l with
  | [] => Some []
  | [_] => None
  | a :: b :: r =>
      match hex_value a, hex_value b, unhex r with
      | Some x, Some y, Some t => Some (x * 16 + y :: t)
      | _, _, _ => None
      end
  end.
(** nacl_wrappers.py:217-230 [Verifier.__init__] with VerifyKey (a key has 32 bytes): the outer None is
    an error, the inner one no key, with which nothing verifies (232-237) *)
Definition nacl_verifier (key : bytes) : option (option bytes) :=
  match key with
  | [] => Some None
  | _ => if Nat.eqb (List.length key) 32 then Some (Some key)
         else match unhex key with
              | Some k => if Nat.eqb (List.length k) 32 then Some (Some k) else None
              | None => None
              end
  end.

(** 25-43 [DidVerifier.__init__], 49-52: the verkey it keeps and the key it verifies with; None: an
    error is raised *)
Definition verifier (v idr : option str) : option (str * option bytes) :=
  let v :=
    match given idr with
    | None => v
    | Some i =>
        match b58decode i with
        | None => None
        | Some raw =>
            let v := match given v with None => if Nat.eqb (List.length raw) 32 then Some i else v | Some _ => v end in (* 32-33 *)
            match given v with
            | None => None                                                               (* 35-36 *)
            | Some v => if match v with c :: _ => c =? tilde | [] => false end then
                          match b58decode (tl v) with Some a => Some (b58encode (raw ++ a)) | None => None end (* 37-39 *)
                        else Some v
            end
        end
    end in
  match v with
  | None => None
  | Some v => match b58decode v with
              | Some key => match nacl_verifier key with Some k => Some (v, k) | None => None end
              | None => None
              end
  end.
