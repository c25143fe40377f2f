(** Specification of the rolling logger. *)
From Coq Require Import Permutation Sorted.
From Verif Require Import Base RotationModel RotationSpec LumberModel.

(** * Seen from outside *)
(** The content of a path *)
Definition lookup (f : FS) (p : bytes) : option bytes := option_map (content f) (find (links f) p).
Definition wrote (o : list output) : list bytes := flat_map (fun x => match x with OWrote c => [c] | _ => [] end) o.
Definition backups (o : list output) : list bytes := flat_map (fun x => match x with OBackup p => [p] | _ => [] end) o.
(** The names of files that the mill has removed, compressed or overwritten *)
Definition milled (o : list output) : list bytes := flat_map (fun x => match x with ORemoved p => [p] | OCompressed p q => [p; q] | _ => [] end) o.
(** The files that were compressed *)
Definition compressed_in (o : list output) : list bytes := flat_map (fun x => match x with OCompressed p _ => [p] | _ => [] end) o.
(** What the calls of Write returned *)
Definition returned (o : list output) : list (nat * bool) := flat_map (fun x => match x with OReturn n e => [(n, e)] | _ => [] end) o.
Definition failures (o : list output) : list nat := flat_map (fun x => match x with OReturn n true => [n] | _ => [] end) o.
(** The records that Write was called with *)
Definition calls (l : list event) : list bytes := flat_map (fun e => match e with EWrite p _ _ _ => [p] | _ => [] end) l.

(** The only error that makes the logger lose something: os.Stat fails for a file that exists *)
Definition stats (e : event) : Prop :=
  match e with
  | EWrite _ a a' _ => aStatNew a = false /\ aStatNew a' = false
  | ERotate a => aStatNew a = false
  | _ => True
  end.
(** The mill does not touch the log itself *)
Definition spares (name : bytes) (e : event) : Prop :=
  match e with
  | ERemove p => p <> name
  | ECompress p _ => p <> name /\ p ++ bs ".gz" <> name
  | _ => True
  end.

Section Names.
  Variables (name : bytes) (max : Z) (backup gzip : bytes -> bytes).
  Definition times (e : event) : list bytes :=
    match e with
    | EWrite _ a a' _ => [aTime a; aTime a']
    | ERotate a => [aTime a]
    | _ => []
    end.
  (** No backup name is that of an existing file *)
  Fixpoint new_names (s : logger) (l : list event) : Prop :=
    match l with
    | [] => True
    | e :: r =>
      (forall t, In t (times e) -> find (links (lfs s)) (backup t) = None) /\
      new_names (fst (step name max backup gzip s e)) r
    end.
End Names.

(** * Backups *)

(** A name that lumberjack gives to backups: prefix, a time, extension; or that, compressed *)
Definition is_backup (parse : bytes -> option Z) (filename : bytes) (n : bytes) (t : Z) : Prop :=
  exists ts, parse ts = Some t /\ (n = backupBase filename ts \/ n = backupBase filename ts ++ bs ".gz").
(** The number of different elements *)
Definition different (l : list bytes) : Z := lenZ (nodup (list_eq_dec Z.eq_dec) l).
(** What sort.Sort does: newest first *)
Definition sorts (sort : list logInfo -> list logInfo) : Prop :=
  forall l, Permutation (sort l) l /\ StronglySorted (fun x y => timestamp y <= timestamp x) (sort l).
(** The k-th of the backups, newest first, is not among the newest MaxBackups; a backup and its compressed form count once *)
Definition surplus (MaxBackups : Z) (old : list logInfo) (k : nat) : Prop :=
  0 < MaxBackups < different (map (fun x => uncompressedName (Name x)) (firstn (S k) old)).
(** Older than MaxAge days, with times in nanoseconds *)
Definition aged (MaxAge now : Z) (x : logInfo) : Prop := 0 < MaxAge /\ timestamp x + MaxAge * (24 * 60 * 60 * 10 ^ 9) < now.
Definition compressed (n : bytes) : Prop := exists b, n = b ++ bs ".gz".

(** The operating system reports no error *)
Definition fine (a : answers) : Prop :=
  aStat a = false /\ aAppend a = false /\ aClose a = false /\ aMkdir a = false /\ aStatNew a = false /\ aRename a = false /\
  aChownOpen a = false /\ aChown a = false /\ aCreate a = false.
