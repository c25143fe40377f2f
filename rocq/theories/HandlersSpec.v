(** The handlers behind a handler, and in which order they get an event. *)
From Verif Require Import Base CountlogModel HandlersModel.

Section Spec.
  Context {Fn Collector Executor Formatter Writer W : Type}.
  Notation handler := (handler Fn Collector Executor Formatter Writer).
  Notation EventHandlers := (EventHandlers Fn Collector Executor Formatter Writer).
  (** The handlers that are no lists of handlers, from left to right *)
  Inductive leaves : handler -> list handler -> Prop :=
  | leaves_list l ls : Forall2 leaves l ls -> leaves (EventHandlers l) (List.concat ls)
  | leaves_one h : (forall l, h <> EventHandlers l) -> leaves h [h].
  (** Each gets the event in turn, until one does not return *)
  Inductive served (handle : handler -> W -> W * ends) : list handler -> W -> W -> ends -> Prop :=
  | served_all w : served handle [] w w Returned
  | served_next h l w w1 w2 e : handle h w = (w1, Returned) -> served handle l w1 w2 e -> served handle (h :: l) w w2 e
  | served_stop h l w w1 e : handle h w = (w1, e) -> e <> Returned -> served handle (h :: l) w w1 e.
End Spec.
