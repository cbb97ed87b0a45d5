(** Model of plenum/server/consensus/primary_selector.py. *)
From Coq Require Import List Arith Bool.
From Verif Require Import Base.
Import ListNotations.
Local Open Scope res_scope.

Section Primary.
  Context {A : Type} (eqd : forall x y : A, {x = y} + {x <> y}).   (* node names *)

  (** [l[k % len(l)]] *)
  Definition pick (l : list A) (k : nat) : res A :=
    match l with
    | [] => Err ZeroDivisionError
    | _ => match nth_error l (k mod length l) with Some x => Ok x | None => Err IndexError end
    end.

  (** primary_selector.py:29-30 [select_master_primary] *)
  Definition select_master_primary (validators : list A) (view_no : nat) : res A := pick validators view_no.

  (** lines 42-53 [select_backup_primaries_round_robin]; the fuel bounds the number of
      iterations ([OutOfFuel] if it is used up: the loop may also run forever). *)
  Fixpoint backup_loop (fuel : nat) (view_no : nat) (validators : list A) (count : nat)
                       (master : A) (i : nat) (primaries : list A) : res (list A) :=
    if count <=? length primaries then Ok primaries
    else match fuel with
         | 0 => Err OutOfFuel
         | S fuel' =>
           p <- pick validators (view_no + i) ;;
           backup_loop fuel' view_no validators count master (i + 1)
             (if eqd p master then primaries else primaries ++ [p])
         end.
  Definition select_backup_primaries_round_robin (fuel view_no : nat) (validators : list A)
      (count : nat) (master : A) : res (list A) :=
    backup_loop fuel view_no validators count master 1 [].

  (** lines 37-40: F = (N - 1) // 3, taken as 0 for N = 0, where it is -1 in Python *)
  Definition select_backup_primaries (fuel view_no : nat) (validators : list A) (master : A) : res (list A) :=
    select_backup_primaries_round_robin fuel view_no validators ((length validators - 1) / 3) master.

  (** lines 32-34 [select_primaries] *)
  Definition select_primaries (fuel : nat) (validators : list A) (view_no : nat) : res (list A) :=
    m <- select_master_primary validators view_no ;;
    bs <- select_backup_primaries fuel view_no validators m ;;
    Ok (m :: bs).

  (** ** Selection from the node registry (lines 56-88) *)
  (** [node_reg]: the registry at the beginning of each view, where known. *)
  Definition node_reg := nat -> option (list A).

  (** lines 76-77, the downward search *)
  Fixpoint search_down (reg : node_reg) (v : nat) : nat :=
    match v with
    | 0 => 0
    | S v' => match reg v with Some _ => v | None => search_down reg v' end
    end.

  (** lines 71-83 [_do_select_master_primary] *)
  Definition do_select_master_primary (view_no : nat) (reg : node_reg) : res A :=
    let start := if 1 <? view_no then view_no - 1 else 0 in
    match reg (search_down reg start) with
    | None => Err LogicError
    | Some l => pick l view_no
    end.

  (** lines 65-69, 84-88: backups come from the active registry *)
  Definition reg_select_primaries (fuel view_no : nat) (uncommitted_reg : node_reg) (active : list A) : res (list A) :=
    m <- do_select_master_primary view_no uncommitted_reg ;;
    bs <- select_backup_primaries fuel view_no active m ;;
    Ok (m :: bs).
End Primary.
