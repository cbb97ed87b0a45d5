(** Model of plenum/common/prepare_batch.py and of the outgoing side of
    plenum/common/batched.py. *)
From Coq Require Import List Arith Bool.
From Verif Require Import Base.
Import ListNotations.
Local Open Scope res_scope.

Section Split.
  Variables (M S : Type).                 (* messages; serialized batches *)
  Variable make_batch : list M -> S.      (* make_batch_func *)
  Variable len : S -> nat.
  Variable under_limit : nat -> bool.     (* is_batch_len_under_limit *)

  (** prepare_batch.py:14-23, the inner loop. [batch_len] is len(batch), [taken] is
      msgs_for_batch. [None]: a message is too long by itself and the function returns. *)
  Fixpoint fill (msgs : list M) (batch_len : nat) (taken : list M) : option (nat * list M * list M) :=
    match msgs with
    | [] => Some (batch_len, taken, [])
    | msg :: msgs' =>
      if under_limit batch_len then
        if under_limit (len (make_batch [msg])) then
          let taken' := taken ++ [msg] in
          fill msgs' (len (make_batch taken')) taken'
        else None
      else Some (batch_len, taken, msgs)
    end.

  (** prepare_batch.py:11-28, the outer loop; the fuel only bounds the recursion. The batch
      of an iteration is make_batch_func of the messages taken, or '' when none was taken,
      and then only when [under_limit 0] fails, where [pop] raises. *)
  Fixpoint split_loop (fuel : nat) (msgs : list M) (batches : list (S * nat))
    : res (option (list (S * nat))) :=
    match msgs with
    | [] => Ok (Some batches)
    | _ =>
      match fuel with
      | 0 => Err OutOfFuel
      | Datatypes.S fuel' =>
        match fill msgs 0 [] with
        | None => Ok None
        | Some (batch_len, taken, rest) =>
          if under_limit batch_len then
            split_loop fuel' rest (batches ++ [(make_batch taken, length taken)])
          else
            match rev taken with
            | [] => Err IndexError
            | overload :: kept_rev =>
              let kept := rev kept_rev in
              split_loop fuel' (overload :: rest) (batches ++ [(make_batch kept, length kept)])
            end
        end
      end
    end.

  (** prepare_batch.py:8-31 [split_messages_on_batches] *)
  Definition split_messages_on_batches (msgs : list M) : res (option (list (S * nat))) :=
    r <- split_loop (length msgs) msgs [] ;;
    match r with
    | None => Ok None
    | Some [] => Ok (Some [(make_batch [], 0)])
    | Some bs => Ok (Some bs)
    end.
End Split.

(** ** Batched: enqueueing and flushing for one remote *)
Section Batched.
  (** A serialized message on the wire; [pack] is sign_and_serialize(Batch(msgs, None)). *)
  Variable S : Type.
  Variable pack : list S -> S.
  Variable len : S -> nat.
  Variable limit : nat.

  (** message_length_validator.py [is_len_less_than_limit] *)
  Definition len_ok (n : nat) : bool := n <=? limit.

  (** batched.py:152-158 [_make_batch]; [msgs[0]] of no message raises, and is never asked for:
      here it yields the packing of nothing. *)
  Definition b_make_batch (msgs : list S) : S :=
    match msgs with
    | [m] => m
    | _ => pack msgs
    end.

  (** One transmission: payload and is_batch flag. *)
  Record sent := mkSent { payload : S; is_batch : bool }.

  (** batched.py:91-138 [flushOutBoxes] for one remote that is still there: the
      transmissions, in order; the outbox is empty afterwards. *)
  Definition flush (enabled : bool) (msgs : list S) : res (list sent) :=
    if enabled && (1 <? length msgs) then
      r <- split_messages_on_batches S S b_make_batch len len_ok msgs ;;
      match r with
      | Some batches => Ok (map (fun b => mkSent (fst b) true) batches)
      | None => Ok []
      end
    else Ok (map (fun m => mkSent m false) msgs).
End Batched.

(** ** Splitting one large message before it is enqueued *)
Section Prepare.
  Variables (M S : Type).
  Variable serialize : M -> S.                      (* sign_and_serialize *)
  Variable len : S -> nat.
  Variable limit : nat.
  Variable splitter : option (M -> option (list M)).  (* message_splitter *)

  (** batched.py:178-199 [prepare_for_sending]; [large] is large_msg_parts with its end first,
      [fine] is fine_msg_parts. [Ok None]: "message is too large and cannot be split". *)
  Fixpoint prepare_loop (fuel : nat) (large : list M) (fine : list S) : res (option (list S)) :=
    match large with
    | [] => Ok (Some fine)
    | part :: large' =>
      match fuel with
      | 0 => Err OutOfFuel
      | Datatypes.S fuel' =>
        let b := serialize part in
        if len_ok limit (len b) then prepare_loop fuel' large' (fine ++ [b])
        else match splitter with
             | None => Ok None
             | Some sp =>
               match sp part with
               | None => Ok None
               | Some parts => prepare_loop fuel' (rev parts ++ large') fine
               end
             end
      end
    end.
  Definition prepare_for_sending (fuel : nat) (msg : M) : res (option (list S)) :=
    prepare_loop fuel [msg] [].
End Prepare.
