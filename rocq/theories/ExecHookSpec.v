(** Which goroutines have not ended, and who holds the mutex. *)
From Verif Require Import Base ExecHookModel.
Open Scope list_scope.

(** From where the goroutine was started that is in these, innermost first *)
Fixpoint started (st : list frame) : option nat :=
  match st with
  | [] => None
  | [FRun l] | [FPanic l] | [FEnd l] | [FEndIn l] => Some l
  | _ :: st => started st
  end.
(** How many goroutines started from there have not ended *)
Definition alive (s : state) (loc : nat) : nat := List.length (filter (fun st => match started st with Some l => (l =? loc)%nat | None => false end) (gor s)).
(** The number in the map *)
Fixpoint get (m : list (nat * Z)) (k : nat) : Z := match m with [] => 0 | (k', v) :: m => if (k' =? k)%nat then v else get m k end.
(** It has the mutex *)
Fixpoint holds (st : list frame) : bool := match st with [] => false | (FGoIn _ | FCheckIn | FEndIn _ | FInfo) :: _ => true | _ :: st => holds st end.
(** It is in a call of the executor that LogInfo has made *)
Definition reentered (st : list frame) : Prop := In FInfo (tl st).
