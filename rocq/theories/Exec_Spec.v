(** What is expected of the execution of batches (C60, C61), in terms of requests, ledgers and answers. *)
From Coq Require Import List Arith Bool.
From Verif Require Import Exec_Model.
Import ListNotations.

(** the committed transactions of a ledger *)
Definition written (n : node) (lid : nat) : list txn := l_com (n_l n lid).
(** the transactions of some requests in a batch *)
Definition stamped (rs : list req) (t : nat) : list txn := map (fun r => mkX r t) rs.

Section Spec.
  Variable lid_of id_of : nat -> nat.
  Variable ok : (nat -> list txn) -> req -> nat -> bool.

  (** a PrePrepare as a primary running this code makes it, whatever its ledgers and queue *)
  Definition correct (p : pp) : Prop := exists n0 rs, p = snd (create lid_of ok n0 (p_lid p) rs (p_time p)).

  (** ** C61: histories in which all PrePrepares come from correct primaries. Catch-up runs only when no
      batch is applied; a batch ordered after its effects were reverted finds the ledger where it was, or
      already past it. *)
  Definition fit (n : node) (e : event) : Prop :=
    match e with
    | EPrePrepare p => correct p
    | EStashed p => n_app n = [] -> correct p /\
        written n (p_lid p) ++ stamped (filter (fun r => negb (is_known n r)) (valid_reqs p)) (p_time p) = p_troot p /\ p_sroot p = p_troot p
    | ECaught _ _ => n_app n = []
    | _ => True
    end.
  Fixpoint fits (n : node) (es : list event) : Prop :=
    match es with
    | [] => True
    | e :: es' => fit n e /\ match step lid_of id_of ok n e with Some m => fits m es' | None => True end
    end.

  (** ** C60: histories with any PrePrepares, of requests with a request number. Catch-up brings requests
      not written yet; a batch ordered after it was reverted has passed the check before. *)
  Definition numbered (rs : list req) : Prop := forall r, In r rs -> id_of (r_pay r) <> 0.
  Definition somewhere (n : node) (pay : nat) : Prop := exists k x, In x (l_com (n_l n k) ++ l_unc (n_l n k)) /\ r_pay (x_req x) = pay.
  Definition fit_once (n : node) (e : event) : Prop :=
    match e with
    | ECreate _ rs _ => numbered rs
    | EPrePrepare p => numbered (p_reqs p)
    | EStashed p => numbered (p_reqs p) /\ NoDup (map r_pay (valid_reqs p)) /\ (forall r, In r (valid_reqs p) -> is_pending lid_of n r = false)
    | ECaught lid x => n_app n = [] -> lid_of (r_pay (x_req x)) = lid /\ id_of (r_pay (x_req x)) <> 0 /\ ~ somewhere n (r_pay (x_req x))
    | _ => True
    end.
  Fixpoint fits_once (n : node) (es : list event) : Prop :=
    match es with
    | [] => True
    | e :: es' => fit_once n e /\ match step lid_of id_of ok n e with Some m => fits_once m es' | None => True end
    end.

  (** the events of a history other than one PrePrepare all come from correct primaries *)
  Definition others_correct (p : pp) (es : list event) : Prop :=
    forall e, In e es -> match e with EPrePrepare q => q = p \/ correct q | EStashed _ | ECaught _ _ => False | _ => True end.
End Spec.
