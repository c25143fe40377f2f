(** What the times in the names of backups are for. *)
From Verif Require Import Base.

(** A day and a millisecond in nanoseconds *)
Definition day : Z := 24 * 60 * 60 * 1000000000.
Definition millisecond (t : Z) : Z := t / 1000000.
(** A backup made at time t is older than so many days *)
Definition older (MaxAge t now : Z) : Prop := t + MaxAge * day < now.
(** Of each two of these lists, taken in order, no elements are the same under f *)
Fixpoint apart {A} (f : A -> Z) (l : list (list A)) : Prop :=
  match l with [] => True | x :: r => (forall a b, In a x -> In b (List.concat r) -> f a <> f b) /\ apart f r end.
