(** Model of the times in the names of lumberjack's backups (countlog/output/lumberjack/lumberjack.go): LumberModel.v with the clock, LocalTime and
    BackupTimeFormat, and with Format and Parse of package time as in TimeNameModel.v.  Times in nanoseconds since the beginning of the year 1, in UTC. *)
From Verif Require Import Base RotationModel LumberModel TimeNameModel.

(** lumberjack.go:39 *)
Definition defaultBackupTimeFormat : bytes := bs "2006-01-02T15-04-05.000".
(** lumberjack.go:223-225, 446-448 *)
Definition formatOf (BackupTimeFormat : bytes) : bytes := match BackupTimeFormat with [] => defaultBackupTimeFormat | f => f end.

Section Backups.
  (** How far the clock at the place of the program is ahead of UTC at a time (currentTime: lumberjack.go:122, 257) *)
  Variable zone : Z -> Z.
  (** lumberjack.go:76-118 *)
  Variable LocalTime : bool.
  Variable BackupTimeFormat : bytes.

  (** lumberjack.go:257-260 *)
  Definition shown (now : Z) : Z := if LocalTime then now + zone now else now.
  (** lumberjack.go:262 *)
  Definition stamp (now : Z) : bytes := Format (formatOf BackupTimeFormat) (shown now).
  (** lumberjack.go:252-264, without the directory *)
  Definition backupAt (filename : bytes) (now : Z) : bytes := backupBase filename (stamp now).
  (** lumberjack.go:449 *)
  Definition parseStamp (ts : bytes) : option Z := Parse (formatOf BackupTimeFormat) ts.
  (** lumberjack.go:309-362 *)
  Definition millAt (sort : list logInfo -> list logInfo) (filename : bytes) (MaxBackups MaxAge : Z) (Compress : bool) (now : Z) (files : list (bytes * bool)) :=
    millChoice parseStamp sort filename MaxBackups MaxAge Compress now files.
End Backups.
