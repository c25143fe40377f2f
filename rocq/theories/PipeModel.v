(** Model of an async writer (countlog/output/async) in front of a rolling log (countlog/output/lumberjack): AsyncWriterConfig.Writer is a *lumberjack.Logger.
    The steps are those of AsyncModel and LumberModel; what is new is which of them happen together.  A Write, Rotate or Close of the logger holds its mutex
    (lumberjack.go:138, 168, 189) and is one step; the mill and other goroutines that rotate the logger come between. *)
From Verif Require Import Base RotationModel.
From Verif Require AsyncModel LumberModel.

(** The writer and its logger: async.go:13-17, lumberjack.go:76-118 *)
Record pipe := mkPipe { pw : AsyncModel.writer; pl : LumberModel.logger }.

(** [PAsync]: a step of a caller of the async writer, or of its goroutine, that does not touch the logger (async.go:73-116, 119).  [PWrite]: the goroutine
    calls Write of the logger with the buffer it took (async.go:85, 96) and gets [r].  [PClose]: Close has waited for the goroutine and closes the logger
    (async.go:119-124).  [PRotate]: somebody calls Rotate of the logger (lumberjack.go:188-192).  [PMill]: the mill removes or compresses a file
    (lumberjack.go:364-376).  [PCrash]: the process ends, wherever its goroutines are, and another one begins (async.go:31-71, lumberjack.go:137-164). *)
Inductive event :=
| PAsync (e : AsyncModel.event)
| PWrite (rec : bytes) (a a' : LumberModel.answers) (fails : option nat) (r : AsyncModel.wresult)
| PClose (fails : bool)
| PRotate (a : LumberModel.answers)
| PMill (e : LumberModel.event)
| PCrash.

(** Whether Write has returned an error, its last output: lumberjack.go:163, async.go:86, 97 *)
Definition resultOf (o : list LumberModel.output) : AsyncModel.wresult :=
  match last o (LumberModel.OReturn 0 false) with LumberModel.OReturn _ true => AsyncModel.WError | _ => AsyncModel.WOk end.
(** Comparison of results, for the events that carry them; no counterpart in the source (async.go:86, 97 look at err) *)
Definition sameResult (x y : AsyncModel.wresult) : bool :=
  match x, y with AsyncModel.WOk, AsyncModel.WOk | AsyncModel.WError, AsyncModel.WError | AsyncModel.WPanic, AsyncModel.WPanic => true | _, _ => false end.

Section Pipe.
  (** async.go:24-29; lumberjack.go:298-304, 453-458, 252-264; gzip *)
  Variable IsQueueBlocking : bool.
  Variable queueLength : nat.
  Variable name : bytes.
  Variable max : Z.
  Variable backup : bytes -> bytes.
  Variable gzip : bytes -> bytes.

  (** async.go:73-125 with lumberjack.go:137-206; [None]: not possible *)
  Definition step (s : pipe) (e : event) : option (pipe * list LumberModel.output) :=
    match e with
    | PAsync (AsyncModel.GWrite _ _) | PAsync AsyncModel.CloseEnd => None
    | PAsync e => match AsyncModel.step IsQueueBlocking queueLength (pw s) e with Some w => Some (mkPipe w (pl s), []) | None => None end
    | PWrite rec a a' fails r =>
      let '(l, o) := LumberModel.Write name max backup (pl s) rec a a' fails in
      if sameResult (resultOf o) r then
        match AsyncModel.step IsQueueBlocking queueLength (pw s) (AsyncModel.GWrite rec r) with Some w => Some (mkPipe w l, o) | None => None end
      else None
    | PClose fails =>
      match AsyncModel.step IsQueueBlocking queueLength (pw s) AsyncModel.CloseEnd with
      | Some w => Some (mkPipe w (fst (LumberModel.close (pl s) fails)), [])
      | None => None
      end
    | PRotate a => let '(l, _, o) := LumberModel.rotate name backup (pl s) a in Some (mkPipe (pw s) l, o)
    | PMill (LumberModel.ERemove _ as e) | PMill (LumberModel.ECompress _ _ as e) =>
      let '(l, o) := LumberModel.step name max backup gzip (pl s) e in Some (mkPipe (pw s) l, o)
    | PMill _ => None
    | PCrash => Some (mkPipe AsyncModel.new (LumberModel.newLogger (LumberModel.lfs (pl s))), [])
    end.
  (** Many steps of async.go:73-125 and lumberjack.go:137-206 *)
  Fixpoint run (s : pipe) (l : list event) : option (pipe * list LumberModel.output) :=
    match l with
    | [] => Some (s, [])
    | e :: l =>
      let? (s, o) := step s e in
      let? (s, o') := run s l in
      Some (s, o ++ o')
    end.
  (** async.go:51-60 with a new logger: lumberjack.go:76-118 *)
  Definition start (f : FS) : pipe := mkPipe AsyncModel.new (LumberModel.newLogger f).
End Pipe.
