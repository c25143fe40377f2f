(** What closing a list of resources should do, in terms of the effects it has. *)
From Verif Require Import Base CloserModel.

Definition closes (trace : list effect) : list (Z * result) :=
  flat_map (fun e => match e with EClose r o => [(r, o)] | _ => [] end) trace.
Definition failures (outs : list result) : list Z :=
  flat_map (fun o => match o with Failed e => [e] | _ => [] end) outs.
Definition logs (trace : list effect) : list effect :=
  filter (fun e => match e with EClose _ _ => false | _ => true end) trace.
(** The trace tells the truth: every close in it is one the resource did at that moment. *)
Definition truthful (close : list effect -> Z -> result) (trace : list effect) : Prop :=
  forall a r o b, trace = a ++ EClose r o :: b -> close a r = o.
Definition err_props (es : list Z) : list property := flat_map (fun e => [PKey (bs "err"); PError e]) es.
(** One Error event per failure, with the caller's properties and the errors so far. *)
Definition error_events (text : bytes) (props : list property) (es : list Z) : list effect :=
  map (fun n => EError text (props ++ err_props (firstn (S n) es))) (seq 0 (List.length es)).
Definition no_panic (close : list effect -> Z -> result) : Prop := forall t r, close t r <> Panicked.
Definition quiet (logPanics : list effect -> bool) : Prop := forall t, logPanics t = false.
