(** What was accepted, dropped and written, told by the events alone. *)
From Verif Require Import Base AsyncModel.

(** The record of call w: what the caller's buffer held when Write was called. *)
Fixpoint record_of (evs : list event) (w : nat) : bytes :=
  match evs with
  | [] => []
  | WCall v _ rec :: evs => if (v =? w)%nat then rec else record_of evs w
  | _ :: evs => record_of evs w
  end.
(** The calls that sent their record, in order. *)
Definition sent (evs : list event) : list nat := flat_map (fun e => match e with WSend w => [w] | _ => [] end) evs.
Definition dropped (evs : list event) : list nat := flat_map (fun e => match e with WDrop w _ => [w] | _ => [] end) evs.
Definition called (evs : list event) : list nat := flat_map (fun e => match e with WCall w _ _ => [w] | _ => [] end) evs.
Definition accepted (evs : list event) : list bytes := map (record_of evs) (sent evs).
(** What the underlying writer was given, in order. *)
Definition written (evs : list event) : list bytes := flat_map (fun e => match e with GWrite rec _ => [rec] | _ => [] end) evs.
Definition prefix {A} (a b : list A) : Prop := exists r, b = a ++ r.

(** l with some elements left out *)
Inductive subseq {A} : list A -> list A -> Prop :=
| sub_nil : subseq [] []
| sub_keep x a b : subseq a b -> subseq (x :: a) (x :: b)
| sub_skip x a b : subseq a b -> subseq a (x :: b).
(** No call of Write begins while another one is going on. *)
Definition sequential (evs : list event) : Prop :=
  forall a w buf rec b, evs = a ++ WCall w buf rec :: b -> forall v, In v (called a) -> In v (sent a) \/ In v (dropped a).
