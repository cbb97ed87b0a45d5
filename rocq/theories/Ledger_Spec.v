(** What a ledger is supposed to be: a list of committed transactions followed by a list
    of uncommitted ones, numbered from 1 without gaps. Independent of trees, databases
    and serializers. *)
From Coq Require Import List Arith Lia Bool.
From Verif Require Import Base Ledger_Model.
Import ListNotations.

Section Spec.
  Context {B : Type}.

  (** [bodies] become transactions with numbers [n+1], [n+2], ... *)
  Fixpoint numbered (n : nat) (bodies : list B) : list (txn B) :=
    match bodies with
    | [] => []
    | b :: bs => mkTxn b (Some (S n)) :: numbered (S n) bs
    end.

  (** Committed part, uncommitted part, and whether a batch (possibly empty) has been
      applied since the uncommitted part was last emptied. *)
  Record lst := mkLst { committed : list (txn B); uncommitted : list (txn B); touched : bool }.

  Definition still (t : bool) (u : list (txn B)) : bool := match u with [] => false | _ => t end.

  Inductive lstep : lst -> op B -> lst -> Prop :=
  | L_apply c u t bs :
      lstep (mkLst c u t) (OApply bs) (mkLst c (u ++ numbered (length c + length u) bs) true)
  | L_commit c u t k :
      lstep (mkLst c u t) (OCommit k) (mkLst (c ++ firstn k u) (skipn k u) (still t (skipn k u)))
  | L_discard0 c u t :
      lstep (mkLst c u t) (ODiscard 0) (mkLst c u t)
  | L_discard c u v t : v <> [] ->
      lstep (mkLst c (u ++ v) t) (ODiscard (length v)) (mkLst c u (still t u))
  | L_reset c u t :
      lstep (mkLst c u t) OReset (mkLst c [] false)
  (* a direct [add] is only meant for a ledger with nothing uncommitted *)
  | L_add c b :
      lstep (mkLst c [] false) (OAdd b) (mkLst (c ++ numbered (length c) [b]) [] false)
  (* a crash inside commit keeps a prefix of what was being committed *)
  | L_crash c u t count k js j : j <= count -> ~ In 1 js ->
      lstep (mkLst c u t) (OCrash count k js) (mkLst (c ++ firstn j u) [] false).

  Definition lempty : lst := mkLst [] [] false.

  Inductive lsteps : lst -> list (op B) -> lst -> Prop :=
  | Ls_nil s : lsteps s [] s
  | Ls_cons s o s1 os s2 : lstep s o s1 -> lsteps s1 os s2 -> lsteps s (o :: os) s2.

  (** Operations the specification allows in a state (a discard must not exceed what is
      uncommitted, a direct add needs nothing uncommitted, and no crash falls between the
      two database resets of a recovery). *)
  Definition allowed (s : lst) (o : op B) : Prop :=
    match o with
    | ODiscard k => k <= length (uncommitted s)
    | OAdd _ => uncommitted s = [] /\ touched s = false
    | OCrash _ _ js => ~ In 1 js
    | _ => True
    end.
  (** A list of operations is allowed if each one is allowed in every state the
      specification may be in at that point. *)
  Fixpoint all_allowed (s : lst) (os : list (op B)) : Prop :=
    match os with
    | [] => True
    | o :: os' => allowed s o /\ forall s', lstep s o s' -> all_allowed s' os'
    end.
End Spec.
