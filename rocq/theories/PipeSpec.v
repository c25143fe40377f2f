(** What an async writer in front of a rolling log accepts and what it hands on, told by the events alone. *)
From Verif Require Import Base RotationModel.
From Verif Require Export PipeModel.
From Verif Require AsyncModel LumberModel LumberSpec.

(** What the events are for the async writer, and for the logger *)
Definition asyncs (l : list event) : list AsyncModel.event :=
  flat_map (fun e => match e with PAsync e => [e] | PWrite rec _ _ _ r => [AsyncModel.GWrite rec r] | PClose _ => [AsyncModel.CloseEnd] | _ => [] end) l.
Definition lumbers (l : list event) : list LumberModel.event :=
  flat_map (fun e => match e with
    | PAsync _ => []
    | PWrite rec a a' fails _ => [LumberModel.EWrite rec a a' fails]
    | PClose fails => [LumberModel.EClose fails]
    | PRotate a => [LumberModel.ERotate a]
    | PMill e => [e]
    | PCrash => [LumberModel.ERestart]
    end) l.
(** The processes one after another: the events between crashes *)
Fixpoint lives (l : list event) : list (list event) :=
  match l with
  | [] => [[]]
  | PCrash :: l => [] :: lives l
  | e :: l => match lives l with life :: more => (e :: life) :: more | [] => [[e]] end
  end.
(** No crash *)
Definition alive (l : list event) : Prop := ~ In PCrash l.
(** The operating system reports no errors to the goroutine *)
Definition healthy (e : event) : Prop :=
  match e with PWrite _ a a' fails _ => LumberSpec.fine a /\ LumberSpec.fine a' /\ fails = None | _ => True end.
