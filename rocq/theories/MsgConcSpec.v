(** What calls of msgfmt in several goroutines have to do with calls one after another. *)
From Verif Require Import Base MsgfmtModel MsgfmtTopProofs MsgConcModel.

(** The call that began as number h *)
Fixpoint begun (evs : list event) (h : nat) : option call :=
  match evs with
  | [] => None
  | Begin v c _ :: evs => if (v =? h)%nat then Some c else begun evs h
  | _ :: evs => begun evs h
  end.
(** Some call with this format began with these arguments *)
Definition used (evs : list event) (format : bytes) (kv : list value) : Prop :=
  exists h c, begun evs h = Some c /\ cformat c = format /\ ckv c = kv.
(** The steps of call h itself *)
Definition of_call (h : nat) (e : event) : Prop :=
  match e with
  | Begin v _ _ | Load v | Compile v | Store v | Fmt v _ | Reads v _ | WriteReturns v | WritePanics v | PutBack v | Returned v _ | Panicked v | Late v _ => v = h
  | Drops _ => False
  end.

Section Spec.
  Variable encoderOf : Z -> option (value -> option bytes).
  Variable timeString : Z -> bytes.
  Variable timeFormat : bytes -> Z -> bytes.
  Variable trimSpace : bytes -> bytes.
  Variable argsText : list value -> bytes.
  Variable panicText : bytes.
  Variable fuel : nat.
  (** Call h has the outcome that Sprintf has if nothing else was called, or just one call before with the same format *)
  Definition as_if (evs : list event) (h : nat) (o : outcome bytes) : Prop :=
    exists c kv, begun evs h = Some c /\ used evs (cformat c) kv /\
      fst (Sprintf encoderOf timeString timeFormat trimSpace argsText panicText fuel
        (cache_after encoderOf timeString timeFormat trimSpace argsText panicText fuel [] [(cformat c, kv)]) (cformat c) (ckv c)) = o.
End Spec.
