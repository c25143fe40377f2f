(** The log a reader should see, told by the events alone. *)
From Verif Require Import Base PoolModel.

(** The record call h formatted. *)
Fixpoint record_of (evs : list event) (h : nat) : bytes :=
  match evs with
  | [] => []
  | Format v rec _ :: evs => if (v =? h)%nat then rec else record_of evs h
  | _ :: evs => record_of evs h
  end.
Definition writes (evs : list event) : list nat := flat_map (fun e => match e with Write h => [h] | _ => [] end) evs.
(** What was written to the sink, and what its reader saw. *)
Definition logged (evs : list event) : list bytes := map (record_of evs) (writes evs).
Definition seen (evs : list event) : list bytes := flat_map (fun e => match e with Read rec => [rec] | _ => [] end) evs.
Definition prefix {A} (a b : list A) : Prop := exists r, b = a ++ r.
