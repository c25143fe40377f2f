(** Model of an async writer (countlog/output/async) in front of a rotating one (countlog/output/rotation): AsyncWriterConfig.Writer is a *rotation.Writer.
    The steps are those of AsyncModel and RotationModel; what is new is which of them happen together.  Write of the rotating writer has many steps, and those of the
    callers of the async writer and of the goroutine that archives come between.  The goroutine of the async writer is the one that writes ("file is owned by the write
    goroutine", rotation.go:22), and closes it when that goroutine is gone. *)
From Verif Require Import Base RotationModel.
From Verif Require AsyncModel.

Section Pipe.
  (** async.go:24-29; rotation.go:71-79, as in RotationModel *)
  Variable IsQueueBlocking : bool.
  Variable queueLength : nat.
  Variable WritePath : bytes.
  Variable Stat : Type.
  Variable noStat : Stat.
  Variable MaxArchivesCount : Z.
  Variable hasDirectory : bytes -> bool.

  (** The two writers: async.go:13-17, rotation.go:21-31 *)
  Record pipe := mkPipe { qw : AsyncModel.writer; qr : state Stat }.

  (** [QAsync]: a step of a caller of the async writer, or of its goroutine, that does not touch the other writer (async.go:73-116, 119).  [QCall]: the goroutine calls
      Write with the buffer it took (async.go:85, 96).  [QStep]: a step of that call, or of the goroutine that archives (rotation.go:116-179).  [QReturn]: the step with which
      the call returns, with [r] (rotation.go:132, 139; async.go:85, 96).  [QClose]: Close has waited for the goroutine and closes the other writer (async.go:119-124,
      rotation.go:142-145). *)
  Inductive event :=
  | QAsync (e : AsyncModel.event)
  | QCall (rec : bytes)
  | QStep (e : RotationModel.event Stat)
  | QReturn (e : RotationModel.event Stat) (rec : bytes) (r : AsyncModel.wresult)
  | QClose.

  (** The buffer that the goroutine took: async.go:84, 95 *)
  Definition taken (w : AsyncModel.writer) : option nat :=
    match AsyncModel.g w with AsyncModel.GWriting b | AsyncModel.GLastWriting b => Some b | _ => None end.
  (** Whether Write has returned, and an error or none: rotation.go:132, 139; async.go:86, 97 *)
  Definition resultOf (o : list output) : option AsyncModel.wresult :=
    match last o OUpdate with OReturn _ err => Some (if err then AsyncModel.WError else AsyncModel.WOk) | _ => None end.
  (** Comparison of results, for the events that carry them; no counterpart in the source (async.go:86, 97 look at err) *)
  Definition sameResult (x : option AsyncModel.wresult) (y : option AsyncModel.wresult) : bool :=
    match x, y with
    | Some AsyncModel.WOk, Some AsyncModel.WOk | Some AsyncModel.WError, Some AsyncModel.WError | None, None => true
    | _, _ => false
    end.

  (** async.go:73-125 with rotation.go:116-179; [None]: not possible *)
  Definition step (s : pipe) (e : event) : option (pipe * list output) :=
    let rstep := RotationModel.step WritePath Stat MaxArchivesCount hasDirectory in
    let astep := AsyncModel.step IsQueueBlocking queueLength in
    match e with
    | QAsync (AsyncModel.GWrite _ _) | QAsync AsyncModel.CloseEnd => None
    | QAsync e => let? w := astep (qw s) e in Some (mkPipe w (qr s), [])
    | QCall rec =>
      let? b := taken (qw s) in
      if AsyncModel.bytes_eqb (nth b (AsyncModel.heap (qw s)) []) rec then
        let? (x, o) := rstep (qr s) (ECall _ rec) in Some (mkPipe (qw s) x, o)
      else None
    | QStep (ECall _ _) | QStep (EClose _) => None
    | QStep e =>
      let? (x, o) := rstep (qr s) e in
      if sameResult (resultOf o) None then Some (mkPipe (qw s) x, o) else None
    | QReturn e rec r =>
      let? (x, o) := rstep (qr s) e in
      if sameResult (resultOf o) (Some r) then
        let? w := astep (qw s) (AsyncModel.GWrite rec r) in Some (mkPipe w x, o)
      else None
    | QClose =>
      let? w := astep (qw s) AsyncModel.CloseEnd in
      let? (x, o) := rstep (qr s) (EClose _) in
      Some (mkPipe w x, o)
    end.
  (** Many steps of async.go:73-125 and rotation.go:116-179 *)
  Fixpoint run (s : pipe) (l : list event) : option (pipe * list output) :=
    match l with
    | [] => Some (s, [])
    | e :: l =>
      let? (s, o) := step s e in
      let? (s, o') := run s l in
      Some (s, o ++ o')
    end.
  (** async.go:51-60 with a new writer: rotation.go:81-114 *)
  Definition start (f : FS) : pipe := mkPipe AsyncModel.new (NewWriter WritePath Stat noStat f).
End Pipe.
