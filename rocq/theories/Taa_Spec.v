(** What users expect of transaction author agreements (C58). *)
From Coq Require Import List Arith Bool.
From Verif Require Import Taa_Model.
Import ListNotations.

(** the agreement recorded for a version, and the acceptance mechanisms recorded for a version *)
Definition agreement (c : conf) (version : str) : option taa := match mget version (c_vers c) with Some d => mget d (c_taas c) | None => None end.
Definition mechanisms (c : conf) (version : str) : option aml := mget version (c_amls c).
(** all states of a node, the committed one first *)
Definition states (n : node) : list conf := map fst (n_com n :: n_states n).

(** what must not change once it is written *)
Definition same_agreement (a b : taa) : Prop :=
  t_text a = t_text b /\ t_version a = t_version b /\ t_ratified a = t_ratified b /\ t_digest a = t_digest b.
Definition keeps (c c' : conf) : Prop :=
  (forall v a, agreement c v = Some a -> exists b, agreement c' v = Some b /\ same_agreement a b) /\
  (forall v m, mechanisms c v = Some m -> mechanisms c' v = Some m).

(** the agreements asked for in a history all are in the set [A], and no two of different versions in
    [A] have the same digest *)
Definition asks (A : str -> str -> Prop) (es : list event) : Prop :=
  forall rs t v text rat ret b e, In (EBatch rs t) es -> In (mkW (WTaa v (Some text) rat ret) b e) rs -> A v text.
Definition separated (H : str -> str) (A : str -> str -> Prop) : Prop :=
  forall v1 t1 v2 t2, A v1 t1 -> A v2 t2 -> H (v1 ++ t1) = H (v2 ++ t2) -> v1 = v2.

(** the batches of a history, and histories that change no acceptance mechanisms *)
Definition batches (es : list event) : list event := filter (fun e => match e with EBatch _ _ => true | _ => false end) es.
Definition no_rejects (es : list event) : Prop := ~ In EReject es.
Definition no_aml (es : list event) : Prop := forall rs t v ms b e, In (EBatch rs t) es -> ~ In (mkW (WAml v ms) b e) rs.

(** an acceptance that counts: it names a recorded agreement that is not retired at the time of the batch,
    is dated to a whole day between the ratification and the batch (with some tolerance), and names one of
    the acceptance mechanisms in force *)
Definition acceptable (max_ts day_len before after : nat) (head com : conf) (acc : option acceptance) (pp_time : nat) : Prop :=
  exists a t r m, acc = Some a /\ mget (ac_digest a) (c_taas head) = Some t /\ (forall q, t_retired t = Some q -> pp_time <= q) /\
    ac_time a <= max_ts /\ ac_time a mod day_len = 0 /\ t_ratified t = Some r /\
    (r - before) / day_len <= ac_time a / day_len <= (pp_time + after) / day_len /\ c_aml com = Some m /\ In (ac_mech a) (a_mechs m).
