(** What an async writer in front of a rotating one accepts and what it hands on, told by the events alone. *)
From Verif Require Import Base RotationModel.
From Verif Require Export RPipeModel.
From Verif Require AsyncModel.

Section Spec.
  Variable Stat : Type.
  (** What the events are for the async writer, and for the other one *)
  Definition asyncs (l : list (event Stat)) : list AsyncModel.event :=
    flat_map (fun e => match e with QAsync _ e => [e] | QReturn _ _ rec r => [AsyncModel.GWrite rec r] | QClose _ => [AsyncModel.CloseEnd] | _ => [] end) l.
  Definition rots (l : list (event Stat)) : list (RotationModel.event Stat) :=
    flat_map (fun e => match e with QCall _ rec => [ECall _ rec] | QStep _ e => [e] | QReturn _ e _ _ => [e] | QClose _ => [EClose _] | _ => [] end) l.
  (** The goroutine is not in Write of the other writer *)
  Definition between (s : pipe Stat) : Prop := wp _ (qr _ s) = WIdle \/ wp _ (qr _ s) = WDone.
  (** A step of the goroutine alone, with no error of the operating system *)
  Definition own (e : event Stat) : Prop :=
    match e with
    | QAsync _ AsyncModel.GTake | QCall _ _ => True
    | QStep _ (EWriter _) | QStep _ (EOpen _ false) | QStep _ (EWrite _ None) => True
    | QReturn _ (EWriter _) _ AsyncModel.WOk | QReturn _ (EUpdate _ _ (Some false)) _ AsyncModel.WOk => True
    | _ => False
    end.
End Spec.
