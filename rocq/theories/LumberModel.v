(** Model of countlog/output/lumberjack: the Logger (Write, Close, Rotate with the files that they open, rename and create), the names
    of the backups, and the choice of the backups that the mill goroutine removes and compresses.

    File system as in RotationModel.  Write, Close and Rotate hold the mutex, so each of them is one step.  The mill goroutine does not
    hold it; its operations on files (any paths but that of the log, see C41) come between these steps: within a call the log file and
    one new name are all that is touched, so an operation of the mill during the call has the effect that it has before or after it.
    What the operating system answers, and the clock, come with the call.  Not modelled: file modes and owners, other processes, the
    error values (an error is a flag), the content of compressed files beyond "made from that file", LocalTime and BackupTimeFormat
    (the formatted time comes with the call; BackupTimeModel.v has them), and that os.Args gives the name if Filename is empty. *)
From Verif Require Import Base RotationModel.

(** * The logger *)

(** lumberjack.go:127-130 *)
Definition megabyte : Z := 1024 * 1024.
(** lumberjack.go:453-458 *)
Definition maxOf (MaxSize : Z) : Z := if MaxSize =? 0 then 100 * megabyte else int64 (MaxSize * megabyte).

(** What the operating system answers to one openExistingOrNew or rotate: [true] is an error (of Stat: other than "not exist");
    [aTime] is the formatted time *)
Record answers := mkAnswers {
  aStat : bool;       (* os_Stat, lumberjack.go:273 *)
  aAppend : bool;     (* os.OpenFile, 285 *)
  aClose : bool;      (* file.Close, 178 *)
  aMkdir : bool;      (* 211 *)
  aStatNew : bool;    (* os_Stat, 218: any error *)
  aTime : bytes;      (* 257-262 *)
  aRename : bool;     (* 227 *)
  aChownOpen : bool;  (* chown_linux.go:12 *)
  aChown : bool;      (* chown_linux.go:18 *)
  aCreate : bool      (* 240 *)
}.

(** lumberjack.go:112-113: the file system, size and file *)
Record logger := mkLogger { lfs : FS; size : Z; lfile : option File }.

(** What is seen of the steps of lumberjack.go:137-206 and 364-376 *)
Inductive output :=
| OReturn (n : nat) (err : bool) (* of Write *)
| OWrote (chunk : bytes)         (* these bytes have reached the log *)
| OBackup (p : bytes)            (* os.Rename of the log to p succeeded *)
| ORemoved (p : bytes)           (* by the mill *)
| OCompressed (p : bytes) (q : bytes).

(** os.OpenFile(p, O_CREATE|O_WRONLY|O_TRUNC); lumberjack.go:240 *)
Definition createTrunc (f : FS) (p : bytes) : FS * File :=
  match find (links f) p with
  | Some i => (mkFS (links f) (setContent (contents f) i []), mkFile i false 0 false)
  | None => (mkFS (link (links f) p (List.length (contents f))) (contents f ++ [[]]), mkFile (List.length (contents f)) false 0 false)
  end.

Section Logger.
  (** l.filename(); l.max(); backupName as a function of the formatted time; gzip *)
  Variable name : bytes.
  Variable max : Z.
  Variable backup : bytes -> bytes.
  Variable gzip : bytes -> bytes.

  (** lumberjack.go:174-181: the logger, and whether there was an error *)
  Definition close (s : logger) (fails : bool) : logger * bool :=
    match lfile s with
    | None => (s, false)
    | Some _ => (mkLogger (lfs s) (size s) None, fails)
    end.

  (** lumberjack.go:210-247, with chown_linux.go:11-19 *)
  Definition openNew (s : logger) (a : answers) : logger * bool * list output :=
    if aMkdir a then (s, true, [])
    else
      let create (f : FS) (o : list output) :=
        if aCreate a then (mkLogger f (size s) (lfile s), true, o)
        else let '(f, x) := createTrunc f name in (mkLogger f 0 (Some x), false, o) in
      match find (links (lfs s)) name with
      | Some i =>
        if aStatNew a then create (lfs s) []
        else if aRename a then (s, true, [])
        else
          let p := backup (aTime a) in
          let f := mkFS (link (unlink (links (lfs s)) name) p i) (contents (lfs s)) in
          if aChownOpen a then (mkLogger f (size s) (lfile s), true, [OBackup p])
          else
            let '(f, _) := createTrunc f name in
            if aChown a then (mkLogger f (size s) (lfile s), true, [OBackup p])
            else create f [OBackup p]
      | None => create (lfs s) []
      end.

  (** lumberjack.go:197-206; mill: see EMill below *)
  Definition rotate (s : logger) (a : answers) : logger * bool * list output :=
    let '(s, err) := close s (aClose a) in
    if err then (s, true, []) else openNew s a.

  (** lumberjack.go:269-294 *)
  Definition openExistingOrNew (s : logger) (a : answers) (writeLen : Z) : logger * bool * list output :=
    match find (links (lfs s)) name with
    | None => if aStat a then (s, true, []) else openNew s a
    | Some i =>
      if aStat a then (s, true, [])
      else
        let n := lenZ (content (lfs s) i) in
        if max <=? int64 (n + writeLen) then rotate s a
        else if aAppend a then openNew s a
        else (mkLogger (lfs s) n (Some (mkFile i true 0 false)), false, [])
    end.

  (** lumberjack.go:137-164.  [fails]: file.Write writes only that many bytes and returns an error. *)
  Definition Write (s : logger) (p : bytes) (a a' : answers) (fails : option nat) : logger * list output :=
    let writeLen := lenZ p in
    if max <? writeLen then (s, [OReturn 0 true])
    else
      let '(s, err, o) := match lfile s with None => openExistingOrNew s a writeLen | Some _ => (s, false, []) end in
      if err then (s, o ++ [OReturn 0 true])
      else
        let '(s, err, o') := if max <? int64 (size s + writeLen) then rotate s a' else (s, false, []) in
        if err then (s, o ++ o' ++ [OReturn 0 true])
        else
          match lfile s with
          | None => (s, o ++ o' ++ [OReturn 0 true]) (* file.Write of nil returns os.ErrInvalid; does not happen *)
          | Some x =>
            let chunk := match fails with None => p | Some n => firstn n p end in
            let '(f, x) := fileWrite (lfs s) x chunk in
            (mkLogger f (int64 (size s + lenZ chunk)) (Some x),
             o ++ o' ++ [OWrote chunk; OReturn (List.length chunk) (match fails with None => false | Some _ => true end)])
          end.

  (** What compressLogFile (lumberjack.go:476-527) leaves behind: the compressed file instead of the file; or an error, after which the
      destination is as before, empty (488: chown has created it), or removed (504) *)
  Inductive compression := Compressed | FailedBefore | FailedEmpty | FailedRemoved.
  (** A file that replaces that of path p; nobody else has the old one open; lumberjack.go:494 *)
  Definition replace (f : FS) (p c : bytes) : FS := mkFS (link (links f) p (List.length (contents f))) (contents f ++ [c]).
  (** lumberjack.go:476-527 *)
  Definition compress (f : FS) (src dst : bytes) (c : compression) : FS * list output :=
    match find (links f) src with
    | None => (f, [])
    | Some i =>
      match c with
      | Compressed =>
        let f := replace f dst (gzip (content f i)) in
        (mkFS (unlink (links f) src) (contents f), [OCompressed src dst])
      | FailedBefore => (f, [])
      | FailedEmpty => (replace f dst [], [ORemoved dst])
      | FailedRemoved => (mkFS (unlink (links f) dst) (contents f), [ORemoved dst])
      end
    end.

  Inductive event :=
  | EWrite (p : bytes) (a a' : answers) (fails : option nat)
  | ERotate (a : answers)
  | EClose (fails : bool)                  (* lumberjack.go:167-171 *)
  | ERestart                               (* the process ends, and another one begins *)
  | ERemove (p : bytes)                    (* the mill removes a file, lumberjack.go:364-369 *)
  | ECompress (p : bytes) (c : compression) . (* the mill compresses a file, lumberjack.go:370-376 *)
  Definition step (s : logger) (e : event) : logger * list output :=
    match e with
    | EWrite p a a' fails => Write s p a a' fails
    | ERotate a => let '(s, _, o) := rotate s a in (s, o)
    | EClose fails => (fst (close s fails), [])
    | ERestart => (mkLogger (lfs s) 0 None, [])
    | ERemove p =>
      match find (links (lfs s)) p with
      | None => (s, [])
      | Some _ => (mkLogger (mkFS (unlink (links (lfs s)) p) (contents (lfs s))) (size s) (lfile s), [ORemoved p])
      end
    | ECompress p c => let '(f, o) := compress (lfs s) p (p ++ bs ".gz") c in (mkLogger f (size s) (lfile s), o)
    end.
  (** Calls of lumberjack.go:137-192 and steps of the mill one after another *)
  Fixpoint run (s : logger) (l : list event) : logger * list output :=
    match l with
    | [] => (s, [])
    | e :: l =>
      let '(s, o) := step s e in
      let '(s, o') := run s l in
      (s, o ++ o')
    end.
  (** &Logger{...}; lumberjack.go:76-118 *)
  Definition newLogger (f : FS) : logger := mkLogger f 0 None.
End Logger.

(** * The names of the backups *)

(** filepath.Ext of a name without a slash: from the last dot; lumberjack.go:255, 469 *)
Fixpoint Ext (s : bytes) : bytes :=
  match s with
  | [] => []
  | c :: r =>
    match Ext r with
    | [] => if c =? 46 then s else []
    | e => e
    end
  end.
(** filename[:len(filename)-len(ext)] *)
Definition stem (s : bytes) : bytes := firstn (List.length s - List.length (Ext s)) s.
(** lumberjack.go:252-264, the last component: [filename] is filepath.Base(name) *)
Definition backupBase (filename timestamp : bytes) : bytes := stem filename ++ bs "-" ++ timestamp ++ Ext filename.
(** lumberjack.go:467-472 *)
Definition prefixAndExt (filename : bytes) : bytes * bytes := (stem filename ++ bs "-", Ext filename).

(** strings.HasPrefix, strings.HasSuffix; lumberjack.go:439, 442 *)
Fixpoint hasPrefix (s p : bytes) : bool :=
  match p, s with
  | [], _ => true
  | x :: p, y :: s => (x =? y) && hasPrefix s p
  | _, _ => false
  end.
(** lumberjack.go:328, 358, 442 *)
Definition hasSuffix (s p : bytes) : bool := hasPrefix (rev s) (rev p).

Inductive parsed := Panics | Rejected | Time (t : Z).
(** lumberjack.go:438-450; 445: slice bounds out of range *)
Definition timeFromName (parse : bytes -> option Z) (filename prefix ext : bytes) : parsed :=
  if negb (hasPrefix filename prefix) then Rejected
  else if negb (hasSuffix filename ext) then Rejected
  else
    let stop := lenZ filename - lenZ ext in
    if lenZ prefix <=? stop then
      match parse (firstn (Z.to_nat (stop - lenZ prefix)) (skipn (List.length prefix) filename)) with
      | None => Rejected
      | Some t => Time t
      end
    else Panics.

(** * The mill *)

(** lumberjack.go:531-534: the timestamp and the name of the file *)
Record logInfo := mkInfo { timestamp : Z; Name : bytes }.

Section Mill.
  (** time.Parse(l.BackupTimeFormat, …); sort.Sort with Less of lumberjack.go:539-541 *)
  Variable parse : bytes -> option Z.
  Variable sort : list logInfo -> list logInfo.

  (** lumberjack.go:414-428.  [files]: names, and whether they are directories.  [None]: panic. *)
  Fixpoint backupsIn (filename : bytes) (files : list (bytes * bool)) : option (list logInfo) :=
    match files with
    | [] => Some []
    | (n, isDir) :: r =>
      if isDir then backupsIn filename r
      else
        let '(prefix, ext) := prefixAndExt filename in
        match timeFromName parse n prefix ext with
        | Panics => None
        | Time t => let? l := backupsIn filename r in Some (mkInfo t n :: l)
        | Rejected =>
          match timeFromName parse n prefix (ext ++ bs ".gz") with
          | Panics => None
          | Time t => let? l := backupsIn filename r in Some (mkInfo t n :: l)
          | Rejected => backupsIn filename r
          end
        end
    end.
  (** lumberjack.go:405-433 without the error of ReadDir *)
  Definition oldLogFiles (filename : bytes) (files : list (bytes * bool)) : option (list logInfo) :=
    let? l := backupsIn filename files in Some (sort l).

  (** lumberjack.go:327-330 *)
  Definition uncompressedName (fn : bytes) : bytes :=
    if hasSuffix fn (bs ".gz") then firstn (List.length fn - 3) fn else fn.
  Definition member (s : bytes) (l : list bytes) : bool := existsb (streq s) l.
  (** lumberjack.go:322-339: files that remain, files to remove; [preserved]: the keys of the map *)
  Fixpoint byCount (MaxBackups : Z) (preserved : list bytes) (files : list logInfo) : list logInfo * list logInfo :=
    match files with
    | [] => ([], [])
    | f :: r =>
      let fn := uncompressedName (Name f) in
      let preserved := if member fn preserved then preserved else fn :: preserved in
      let '(remaining, remove) := byCount MaxBackups preserved r in
      if MaxBackups <? lenZ preserved then (remaining, f :: remove) else (f :: remaining, remove)
    end.
  (** lumberjack.go:342-343; [now] in nanoseconds *)
  Definition hour24 : Z := 24 * 3600 * second.
  Definition cutoffOf (MaxAge now : Z) : Z := now + int64 (-1 * int64 (hour24 * MaxAge)).
  (** lumberjack.go:309-362: the files to remove and to compress.  [None]: panic.  ([now]: time.Time has a greater range than int64, Add
      does not wrap around.) *)
  Definition millChoice (filename : bytes) (MaxBackups MaxAge : Z) (Compress : bool) (now : Z) (files : list (bytes * bool)) : option (list logInfo * list logInfo) :=
    if (MaxBackups =? 0) && (MaxAge =? 0) && negb Compress then Some ([], [])
    else
      let? files := oldLogFiles filename files in
      let '(files, remove) := if (0 <? MaxBackups) && (MaxBackups <? lenZ files) then byCount MaxBackups [] files else (files, []) in
      let '(files, remove) :=
        if 0 <? MaxAge then
          let old f := timestamp f <? cutoffOf MaxAge now in
          (filter (fun f => negb (old f)) files, remove ++ filter old files)
        else (files, remove) in
      let compress := if Compress then filter (fun f => negb (hasSuffix (Name f) (bs ".gz"))) files else [] in
      Some (remove, compress).
End Mill.
