(** A plain codec for records of numbers and lists. It models no code: the Examples use it where a
    theorem asks for some serializer that can be undone. *)
From Coq Require Import List Arith NArith.
Import ListNotations.

Record codec (A : Type) := mkCodec
  { enc : A -> list N; dec : list N -> option (A * list N); dec_enc : forall x r, dec (enc x ++ r) = Some (x, r) }.
Arguments enc {A} _ _. Arguments dec {A} _ _. Arguments dec_enc {A} _ _ _.

Definition c_N : codec N.
Proof. refine (mkCodec N (fun n => [n]) (fun l => match l with n :: r => Some (n, r) | [] => None end) _). reflexivity. Defined.

Definition c_map {A B} (c : codec A) (f : A -> B) (g : B -> A) (fg : forall b, f (g b) = b) : codec B.
Proof.
  refine (mkCodec B (fun b => enc c (g b)) (fun l => match dec c l with Some (a, r) => Some (f a, r) | None => None end) _).
  intros b r. rewrite (dec_enc c), fg. reflexivity.
Defined.
Definition c_nat : codec nat := c_map c_N N.to_nat N.of_nat Nat2N.id.

Definition c_pair {A B} (a : codec A) (b : codec B) : codec (A * B).
Proof.
  refine (mkCodec (A * B) (fun p => enc a (fst p) ++ enc b (snd p))
    (fun l => match dec a l with Some (x, l1) => match dec b l1 with Some (y, r) => Some ((x, y), r) | None => None end | None => None end) _).
  intros [x y] r. cbn [fst snd]. rewrite <- app_assoc, (dec_enc a), (dec_enc b). reflexivity.
Defined.
Definition c_sum {A B} (a : codec A) (b : codec B) : codec (A + B).
Proof.
  refine (mkCodec (A + B) (fun s => match s with inl x => 0%N :: enc a x | inr y => 1%N :: enc b y end)
    (fun l => match l with
              | [] => None
              | 0%N :: l => match dec a l with Some (x, r) => Some (inl x, r) | None => None end
              | _ :: l => match dec b l with Some (x, r) => Some (inr x, r) | None => None end
              end) _).
  intros [x|x] r; cbn [app]; rewrite dec_enc; reflexivity.
Defined.
Definition c_unit : codec unit.
Proof. refine (mkCodec unit (fun _ => []) (fun l => Some (tt, l)) _). intros [] r. reflexivity. Defined.
Definition c_option {A} (a : codec A) : codec (option A).
Proof.
  refine (c_map (c_sum a c_unit) (fun s => match s with inl x => Some x | inr _ => None end) (fun o => match o with Some x => inl x | None => inr tt end) _).
  intros [x|]; reflexivity.
Defined.
Section L.
  Context {A : Type} (a : codec A).
  Fixpoint dec_n (n : nat) (l : list N) : option (list A * list N) :=
    match n with
    | 0 => Some ([], l)
    | S n => match dec a l with
             | Some (x, l1) => match dec_n n l1 with Some (xs, r) => Some (x :: xs, r) | None => None end
             | None => None
             end
    end.
  Definition c_list : codec (list A).
  Proof.
    refine (mkCodec (list A) (fun l => N.of_nat (length l) :: flat_map (enc a) l)
      (fun l => match l with n :: l => dec_n (N.to_nat n) l | [] => None end) _).
    intros l r. cbn [app]. rewrite Nat2N.id. induction l as [|x l IH]; [reflexivity|].
    cbn [flat_map length dec_n]. rewrite <- app_assoc, (dec_enc a), IH. reflexivity.
  Defined.
End L.
