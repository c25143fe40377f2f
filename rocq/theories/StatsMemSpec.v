(** What the statistics say, by value: no addresses. *)
From Verif Require Import Base MsgfmtModel StatsModel StatsMemModel.

(** The states that can be reached. *)
Definition reached (w : world) : Prop := exists evs, mruns start evs = Some w.
(** A map as it looks: the texts of the dimensions and their counts. *)
Definition counts (w : world) (m : nat) : list (list bytes * Z) :=
  map (fun e => (ktexts (heap w) (fst e), cellOf (heap w) (snd e))) (mapOf (heap w) m).
(** The properties of an event as they look. *)
Definition asValues (w : world) (properties : list (option str)) : list value :=
  map (fun p => match p with Some s => VStr (text (heap w) s) | None => VAny 0 0 end) properties.
(** Two maps have no counter in common. *)
Definition apart (w : world) (a b : nat) : Prop :=
  forall k c k', In (k, c) (mapOf (heap w) a) -> ~ In (k', c) (mapOf (heap w) b).
(** What is not done by the statistics. *)
Definition ofProgram (e : mevent) : Prop :=
  match e with PBlock _ | PArray _ | PWrite _ _ | PSet _ _ _ => True | _ => False end.
(** The count of a dimension. *)
Definition countOf (w : world) (m : nat) (d : list bytes) : Z :=
  match get (counts w m) d with Some c => c | None => 0 end.
(** The points call x of exportShard has given to the collector. *)
Definition given (w : world) (x : nat) : list gpoint :=
  match nth_error (exporting w) x with Some x => xgiven x | None => [] end.
(** Writes to an array. *)
Definition writesTo (a : nat) (e : mevent) : Prop := match e with PSet a' _ _ => a' = a | _ => False end.
(** The sum of two counts; a dimension that is missing has none. *)
Definition summed (a b : option Z) : option Z :=
  match a, b with Some x, Some y => Some ((x + y) mod 2 ^ 64) | None, y => y | x, None => x end.
