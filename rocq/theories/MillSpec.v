(** Specification of the mill goroutine of the rolling logger. *)
From Verif Require Import Base RotationModel RotationSpec LumberModel LumberSpec MillModel.

(** * What was seen *)
Definition logs (o : list mout) : list output := flat_map (fun x => match x with Log o => [o] | _ => [] end) o.
Definition asked (o : list mout) : list unit := flat_map (fun x => match x with Asked => [tt] | _ => [] end) o.
(** The directory was read, or could not be read *)
Definition lists (o : list mout) : list unit := flat_map (fun x => match x with Listed _ _ | ListFailed => [tt] | _ => [] end) o.
(** The time at which the directory was last read *)
Definition lastRead (o : list mout) : option Z := fold_left (fun r x => match x with Listed _ now => Some now | _ => r end) o None.
(** A call of Write or Rotate has returned without an error *)
Definition succeeded (o : list mout) : Prop := (exists n, In (Log (OReturn n false)) o) \/ In (Rotates false) o.

(** * Events *)
(** A step of the mill goroutine; a step of a call that has the mutex *)
Definition of_mill (e : mevent) : Prop := match e with MReceive _ | MList _ _ _ _ | MRemove _ _ | MCompress _ _ => True | _ => False end.
Definition no_call (e : mevent) : Prop := match e with CWrite _ _ _ _ | CRotate _ | CClose _ => False | _ => True end.
Definition steps (l : list mevent) : nat := List.length (filter (fun e => match e with CStep => true | _ => false end) l).
(** The operating system reports no error *)
Definition healthy (e : mevent) : Prop :=
  match e with
  | CWrite _ a a' _ => fine a /\ fine a'
  | CRotate a => fine a
  | MList _ fails _ _ | MRemove _ fails => fails = false
  | MCompress _ c => c = Compressed
  | _ => True
  end.

Section Spec.
  Variable step : st -> mevent -> st * list mout.
  (** No call is under way, and the mill has nothing to do *)
  Definition at_rest (s : st) : Prop := spc s = Idle /\ crashed s = false /\ forall e, of_mill e -> step s e = (s, []).
  (** Each of the steps does something *)
  Fixpoint effective (s : st) (l : list mevent) : Prop :=
    match l with
    | [] => True
    | e :: r => step s e <> (s, []) /\ effective (fst (step s e)) r
    end.
End Spec.

Section Backups.
  Variables (dir filename : bytes) (parse : bytes -> option Z).
  (** A backup in the directory *)
  Definition a_backup (f : FS) (n : bytes) : Prop :=
    find (links f) (dir ++ n) <> None /\ ~ In 47 n /\ exists t, is_backup parse filename n t.
  (** Not older than MaxAge days at that time *)
  Definition young (MaxAge now : Z) (n : bytes) : Prop := exists t, is_backup parse filename n t /\ ~ aged MaxAge now (mkInfo t n).
End Backups.

(** Two goroutines that use BackupTimeFormat at the same time, one of them to write it, without the mutex in one of them *)
Definition race (usesC : st -> option bool) (usesM : st -> nat -> option bool) (s : st) : Prop :=
  exists k a b, usesC s = Some a /\ usesM s k = Some b /\ (a = true \/ b = true).

(** What the operating system will answer in the next step of the call *)
Definition answersOf (p : pc) : option answers :=
  match p with Opening _ a _ _ => Some a | Checking _ a _ => Some a | Rotating a => Some a | _ => None end.
