(** Specification of file rotation. *)
From Coq Require Import Permutation Sorted.
From Verif Require Import Base RotationModel.

(** * Seen from outside *)

(** What is in the file of path p; nothing if there is none *)
Definition read (f : FS) (p : bytes) : bytes := match find (links f) p with Some i => content f i | None => [] end.

Definition archived (o : list output) : list bytes := flat_map (fun x => match x with OArchived p => [p] | _ => [] end) o.
Definition removed (o : list output) : list bytes := flat_map (fun x => match x with ORemoved p => [p] | _ => [] end) o.
Definition wrote (o : list output) : list bytes := flat_map (fun x => match x with OWrote c => [c] | _ => [] end) o.
(** What the calls of Write returned: the number of bytes *)
Definition returned (o : list output) : list nat := flat_map (fun x => match x with OReturn n _ => [n] | _ => [] end) o.
(** With the errors *)
Definition results (o : list output) : list (nat * bool) := flat_map (fun x => match x with OReturn n err => [(n, err)] | _ => [] end) o.
Definition updates (o : list output) : list unit := flat_map (fun x => match x with OUpdate => [tt] | _ => [] end) o.
Definition reopened (o : list output) : list unit := flat_map (fun x => match x with OReopened => [tt] | _ => [] end) o.
Section Calls.
  Variable Stat : Type.
  (** The records that Write was called with *)
  Definition calls (l : list (event Stat)) : list bytes := flat_map (fun e => match e with ECall _ buf => [buf] | _ => [] end) l.
  (** No I/O error when opening and writing the file *)
  Definition healthy (e : event Stat) : Prop :=
    match e with EOpen _ fails => fails = false | EWrite _ fails => fails = None | _ => True end.
  (** Between two calls of Write, or closed *)
  Definition at_rest (s : state Stat) : Prop := wp _ s = WIdle \/ wp _ s = WDone.
  (** The trigger strategy never asks for a timer (a duration of 0, as a trigger by size would) *)
  Definition no_timer (e : event Stat) : Prop := match e with ETrigger _ (Some d) _ => d <= 0 | _ => True end.
  (** The random number is one of rand.Int63n(duration) *)
  Definition random_ok (e : event Stat) : Prop := match e with ETrigger _ (Some d) r => 0 < d -> 0 <= r < d | _ => True end.
  Variable WritePath : bytes.
  Variable Max : Z.
  Variable hasDirectory : bytes -> bool.
  (** No archive name is that of an existing file *)
  Fixpoint new_names (s : state Stat) (l : list (event Stat)) : Prop :=
    match l with
    | [] => True
    | e :: r =>
      match e with ERename _ (Some p) _ => find (links (fs _ s)) p = None \/ find (links (fs _ s)) WritePath = None | _ => True end /\
      match step WritePath Stat Max hasDirectory s e with Some (s', _) => new_names s' r | None => True end
    end.
End Calls.

(** A file system: the paths refer to files *)
Definition good_fs (f : FS) : Prop := forall p i, find (links f) p = Some i -> (i < List.length (contents f))%nat.

(** * The trigger by size *)
Section Feed.
  Variable update : option Z -> option Z -> Z -> option Z * bool * bool.
  (** The calls of UpdateStat for records of the lengths ns, while file.Stat() says size: the stat, and for every call whether it triggered *)
  Fixpoint feed (stat : option Z) (size : Z) (ns : list Z) : option Z * list bool :=
    match ns with
    | [] => (stat, [])
    | n :: ns => let '(stat, triggered, _) := update stat (Some size) n in let '(stat, l) := feed stat (size + n) ns in (stat, triggered :: l)
    end.
End Feed.
(** The sizes of a file of that size after each of the writes *)
Fixpoint sizes (size : Z) (ns : list Z) : list Z := match ns with [] => [] | n :: ns => (size + n) :: sizes (size + n) ns end.

(** * Retention *)

(** l is in the order of the archive times *)
Definition by_time (l : list Archive) : Prop := StronglySorted (fun x y => ArchivedAt x <= ArchivedAt y) l.
(** purge keeps the newest n of l *)
Definition keeps_newest (n : Z) (l purge : list Archive) : Prop :=
  exists kept, Permutation l (purge ++ kept) /\ lenZ kept = Z.min n (lenZ l) /\
    forall x y, In x purge -> In y kept -> ArchivedAt x <= ArchivedAt y.

(** What sort.Sort does *)
Definition sorts (sort : list timedFile -> list timedFile) : Prop :=
  forall l, Permutation (sort l) l /\ StronglySorted (fun x y => ttime x <= ttime y) (sort l).
