(** Vocabulary for C52 and C53: the registry that the ordered history determines. *)
From Coq Require Import List Arith Bool.
From Verif Require Import Base Dict NodeReg_Model.
Import ListNotations.

(** A NODE operation that lists services makes the node a validator (at the end of the registry,
    unless it is there) or removes it. *)
Definition changed (reg : list nat) (o : nodeop) : list nat :=
  match no_validator o with
  | Some true => if in_dec Nat.eq_dec (no_name o) reg then reg else reg ++ [no_name o]
  | Some false => filter (fun x => negb (x =? no_name o)) reg
  | None => reg
  end.
(** A batch: its NODE operations, its view, and the registry its sender reported. A node without
    registry (an observer) takes the reported one. *)
Record nb := mkNB { nb_ops : list nodeop; nb_view : nat; nb_reported : option (list nat) }.
Definition after (reg : list nat) (b : nb) : list nat :=
  match fold_left changed (nb_ops b) reg, nb_reported b with
  | [], Some l => l
  | r, _ => r
  end.
Definition registry (reg : list nat) (bs : list nb) : list nat := fold_left after bs reg.

(** The views that the batches enter, each with the registry when it is entered: that after the
    last batch before. *)
Fixpoint entered (reg : list nat) (view : nat) (bs : list nb) : dict (list nat) :=
  match bs with
  | [] => []
  | b :: bs' => if view <? nb_view b then (nb_view b, reg) :: entered (after reg b) (nb_view b) bs'
                else entered (after reg b) view bs'
  end.
Definition view_after (view : nat) (bs : list nb) : nat := fold_left (fun v b => Nat.max v (nb_view b)) bs view.
Definition last_two {V} (l : list V) : list V := skipn (length l - 2) l.

(** Histories: batches done, batches applied and not committed, operations applied since. A batch
    is never of an earlier view than the one before it; it is committed with the view it was
    applied with. *)
Record nspec := mkNS { ns_done : list nb; ns_pend : list nb; ns_open : list nodeop; ns_shared : bool }.
Definition nspec1 (view0 : nat) (s : nspec) (o : nop) : option nspec :=
  match o with
  | NReq q => Some (mkNS (ns_done s) (ns_pend s) (ns_open s ++ [q]) (ns_shared s))
  | NApplied v orig rep =>
    if view_after view0 (ns_done s ++ ns_pend s) <=? batch_view v orig then
      Some (mkNS (ns_done s) (ns_pend s ++ [mkNB (ns_open s) (batch_view v orig) rep]) [] (ns_shared s))
    else None
  | NRejected =>
    match ns_pend s with
    | [] => None
    | _ => Some (mkNS (ns_done s) (removelast (ns_pend s)) [] (negb (length (ns_pend s) =? 1)))
    end
  | NCommit v orig =>
    match ns_pend s with
    | b :: rest => if batch_view v orig =? nb_view b then Some (mkNS (ns_done s ++ [b]) rest (ns_open s) (ns_shared s)) else None
    | [] => None
    end
  end.
Fixpoint nspecs (view0 : nat) (s : nspec) (os : list nop) : option nspec :=
  match os with
  | [] => Some s
  | o :: os' => match nspec1 view0 s o with Some s' => nspecs view0 s' os' | None => None end
  end.

(** [ns_shared]: a batch was rejected while others stayed applied, and since then not all have been
    rejected. A history is careful if no operation changes the registry in that situation. *)
Definition careful1 (reg0 : list nat) (s : nspec) (o : nop) : Prop :=
  match o with
  | NReq q => ns_shared s = true ->
      let reg := fold_left changed (ns_open s) (registry reg0 (ns_done s ++ ns_pend s)) in changed reg q = reg
  | _ => True
  end.
Fixpoint careful (reg0 : list nat) (view0 : nat) (s : nspec) (os : list nop) : Prop :=
  match os with
  | [] => True
  | o :: os' => careful1 reg0 s o /\ match nspec1 view0 s o with Some s' => careful reg0 view0 s' os' | None => True end
  end.
