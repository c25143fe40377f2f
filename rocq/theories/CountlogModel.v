(** Model of countlog/countlog.go, context.go (the logging methods), root.go, timer.go and the levels of spi/spi.go. *)
From Verif Require Import Base MsgfmtModel.
Local Arguments Returns {A}.
Local Arguments Panics {A}.
Local Arguments Unfinished {A}.

(** spi.go:15-36 *)
Definition LevelTraceCall : Z := 5.
(** spi.go:15-36, the other levels *)
Definition LevelTrace : Z := 10.
(** spi.go:15-36 *)
Definition LevelDebugCall : Z := 15.
(** spi.go:15-36 *)
Definition LevelDebug : Z := 20.
(** spi.go:15-36 *)
Definition LevelInfoCall : Z := 25.
(** spi.go:15-36 *)
Definition LevelInfo : Z := 30.
(** spi.go:15-36 *)
Definition LevelWarn : Z := 40.
(** spi.go:15-36 *)
Definition LevelError : Z := 50.
(** spi.go:15-36 *)
Definition LevelFatal : Z := 60.

(** spi.go:38-55 *)
Definition LevelName (level : Z) : bytes :=
  if (level =? LevelTraceCall) || (level =? LevelTrace) then bs "TRACE"
  else if (level =? LevelDebugCall) || (level =? LevelDebug) then bs "DEBUG"
  else if (level =? LevelInfoCall) || (level =? LevelInfo) then bs "INFO"
  else if level =? LevelWarn then bs "WARN"
  else if level =? LevelError then bs "ERROR"
  else if level =? LevelFatal then bs "FATAL"
  else bs "UNKNOWN".

(** spi.go:9-13, the two variables *)
Record levels := mkLevels { MinLevel : Z; MinCallLevel : Z }.
Definition initialLevels : levels := mkLevels LevelTrace LevelDebugCall.
(** countlog.go:28-31 *)
Definition SetMinLevel (level : Z) : levels := mkLevels level (level + 5).
(** countlog.go:33-35 *)
Definition ShouldLog (l : levels) (level : Z) : bool := MinLevel l <=? level.

(** A stack frame as runtime.Caller and FuncForPC tell it: function, file, line. countlog.go:206-220. *)
Record frame := mkFrame { f_func : bytes; f_file : bytes; f_line : Z }.
(** Frames of this package; the line is of no importance. countlog.go:37-185, context.go:37-130. *)
Definition here (func file : bytes) : frame := mkFrame func file 0.
(** runtime.Caller(skip); beyond the outermost frame nothing is known. countlog.go:206-220. *)
Definition Caller (skip : nat) (stack : list frame) : frame := nth skip stack (mkFrame [] [] 0).

(** An error: the text its method Error gives, or [None] if that panics. *)
Definition error := option bytes.
(** spi.go:58-66; a context is a number, [None]: nil. *)
Record site := mkSite {
  Context : option nat; Func : bytes; File : bytes; Line : Z; SiteEvent : bytes; Agg : bytes; Sample : list value
}.
(** spi.go:80-86 *)
Record event := mkEvent { Level : Z; EventContext : option nat; Err : option error; Timestamp : Z; Properties : list value }.

(** How a call of a handler ends: it returns, panics (with a value that is not nil; panic(nil) is the same as returning, for the
    code that recovers), or never returns. *)
Inductive ends := Returned | Panicked | Blocked.
(** Handler modes: root.go:74, root.go:86 *)
Inductive mode := NormalMode | FallbackMode.
(** How a logging call ends, in state [s]. countlog.go:37-185. *)
Inductive result {S A : Type} := Ret (a : A) (s : S) | Pan (s : S) | Never (s : S).
Arguments result : clear implicits.

(** root.go:30-34 (oneHandler, r_stats = None), 50-55 (statsAndOutput) *)
Record root (H : Type) := mkRoot { r_site : site; r_stats : option H; r_out : H; r_mode : mode }.
Arguments mkRoot {H}. Arguments r_site {H}. Arguments r_stats {H}. Arguments r_out {H}. Arguments r_mode {H}.
(** root.go:93-95 (redirector) *)
Inductive handler (H : Type) := Root (r : root H) | Redirector (s : site).

Arguments Root {H}. Arguments Redirector {H}.
(** spi.go:9-13, countlog.go:144.  Keys of handlerCache are event names and, root.go:115-118, places; the latter
    only ever hold what newRootHandler makes (root.go:110). *)
Record state (W H : Type) := mkState {
  st_levels : levels;
  byEvent : bytes -> option (handler H);
  byPlace : bytes -> Z -> option (root H);
  world : W
}.
Arguments mkState {W H}. Arguments st_levels {W H}. Arguments byEvent {W H}. Arguments byPlace {W H}. Arguments world {W H}.

(** Everything outside of these files is in a world [W]: what was written, collected, told; [H] are the handlers that the
    aggregator and the writer make. *)
Record environment (W H : Type) := mkEnv {
  (** EventAggregator.HandlerOf and EventWriter.HandlerOf (countlog/spi.go:11-18); outer [None]: panic, inner [None]: nil. *)
  aggregatorHandlerOf : site -> W -> W * option (option H);
  writerHandlerOf : site -> W -> W * option H;
  (** handler.Handle (spi.go:92-95); the handler can change the event. *)
  handle : H -> event -> W -> W * (event * ends);
  (** loglog.Error and debug.PrintStack, root.go:87, 89 *)
  loglogError : W -> W;
  printStack : W -> W;
  (** msgfmt.FormatterOf(eventName, properties).Format(nil, properties), countlog.go:159-160 *)
  sprint : bytes -> list value -> W -> W * outcome bytes;
  (** What other goroutines do before this one reads the cache, countlog.go:199, root.go:100. *)
  others : state W H -> state W H
}.
Arguments mkEnv {W H}. Arguments aggregatorHandlerOf {W H}. Arguments writerHandlerOf {W H}. Arguments handle {W H}.
Arguments loglogError {W H}. Arguments printStack {W H}. Arguments sprint {W H}. Arguments others {W H}.

Section Countlog.
  Context {W H : Type}.
  Variable E : environment W H.
  Notation state := (state W H).
  Notation root := (root H).
  Notation handler := (handler H).

  (** Updates of the state; the Store of lines countlog.go:218, root.go:78, root.go:110 *)
  Definition setWorld (s : state) (w : W) : state := mkState (st_levels s) (byEvent s) (byPlace s) w.
  (** countlog.go:218, root.go:78 *)
  Definition storeEvent (s : state) (name : bytes) (h : handler) : state :=
    mkState (st_levels s) (fun n => if bytes_eqb n name then Some h else byEvent s n) (byPlace s) (world s).
  (** root.go:110 *)
  Definition storePlace (s : state) (file : bytes) (line : Z) (r : root) : state :=
    mkState (st_levels s) (byEvent s) (fun f l => if bytes_eqb f file && (l =? line) then Some r else byPlace s f l) (world s).

  (** root.go:13-28.  [None]: panic. *)
  Definition newRootHandler (st : site) (onPanic : mode) (s : state) : state * option root :=
    let '(w, stats) := aggregatorHandlerOf E st (world s) in
    match stats with
    | None => (setWorld s w, None)
    | Some statsHandler =>
      let '(w, out) := writerHandlerOf E st w in
      (setWorld s w, match out with None => None | Some out => Some (mkRoot st statsHandler out onPanic) end)
    end.

  (** root.go:43, 64-67: the part of Handle that is guarded by recover *)
  Definition guarded (r : root) (ev : event) (s : state) : state * (event * ends) :=
    match r_stats r with
    | None => let '(w, x) := handle E (r_out r) ev (world s) in (setWorld s w, x)
    | Some statsHandler =>
      if MinCallLevel (st_levels s) <=? Level ev then
        let '(w, (ev, e)) := handle E (r_out r) ev (world s) in
        match e with
        | Returned => let '(w, x) := handle E statsHandler ev w in (setWorld s w, x)
        | _ => (setWorld s w, (ev, e))
        end
      else let '(w, x) := handle E statsHandler ev (world s) in (setWorld s w, x)
    end.

  (** root.go:86-91 *)
  Definition fallbackModeOnPanic (s : state) : state :=
    let w := loglogError E (world s) in
    setWorld s (if MinLevel (st_levels s) <=? LevelDebug then printStack E w else w).

  (** root.go:36-44, 57-68 with fallbackModeOnPanic *)
  Definition handleFallback (r : root) (ev : event) (s : state) : state * (event * ends) :=
    let '(s, (ev, e)) := guarded r ev s in
    match e with
    | Panicked => (fallbackModeOnPanic s, (ev, Returned))
    | _ => (s, (ev, e))
    end.

  (** root.go:74-84 *)
  Definition nomalModeOnPanic (st : site) (ev : event) (s : state) : state * (event * ends) :=
    let s := storeEvent s (SiteEvent st) (Redirector st) in
    let newSite := mkSite (Context st) (Func st) (bs "unknown") 0 (SiteEvent st) (Agg st) (Properties ev) in
    let '(s, r) := newRootHandler newSite FallbackMode s in
    match r with
    | None => (s, (ev, Panicked))
    | Some r => handleFallback r ev s
    end.

  (** root.go:36-44, 57-68 *)
  Definition handleRoot (r : root) (ev : event) (s : state) : state * (event * ends) :=
    match r_mode r with
    | FallbackMode => handleFallback r ev s
    | NormalMode =>
      let '(s, (ev, e)) := guarded r ev s in
      match e with
      | Panicked => nomalModeOnPanic (r_site r) ev s
      | _ => (s, (ev, e))
      end
    end.

  (** root.go:97-113 *)
  Definition redirectorHandle (st : site) (ev : event) (stack : list frame) (s : state) : state * (event * ends) :=
    let stack := here (bs "(*redirector).Handle") (bs "root.go") :: stack in
    let caller := Caller 3 stack in
    let s := others E s in
    match byPlace s (f_file caller) (f_line caller) with
    | Some r => handleRoot r ev s
    | None =>
      let st := mkSite (Context st) (Func st) (f_file caller) (f_line caller) (SiteEvent st) (Agg st) (Properties ev) in
      let '(s, r) := newRootHandler st FallbackMode s in
      match r with
      | None => (s, (ev, Panicked))
      | Some r => handleRoot r ev (storePlace s (f_file caller) (f_line caller) r)
      end
    end.

  (** handler.Handle(castedEvent) of countlog.go:157 *)
  Definition handlerHandle (h : handler) (ev : event) (stack : list frame) (s : state) : state * (event * ends) :=
    match h with
    | Root r => handleRoot r ev s
    | Redirector st => redirectorHandle st ev stack s
    end.

  (** countlog.go:206-220.  [None]: panic. *)
  Definition newHandler (eventName agg : bytes) (ctx : option nat) (properties : list value) (stack : list frame) (s : state)
    : state * option handler :=
    let stack := here (bs "newHandler") (bs "countlog.go") :: stack in
    let caller := Caller 4 stack in
    let st := mkSite ctx (f_func caller) (f_file caller) (f_line caller) eventName agg properties in
    let '(s, r) := newRootHandler st NormalMode s in
    match r with
    | None => (s, None)
    | Some r => (storeEvent s eventName (Root r), Some (Root r))
    end.

  (** countlog.go:198-204 *)
  Definition getHandler (eventName agg : bytes) (ctx : option nat) (properties : list value) (stack : list frame) (s : state)
    : state * option handler :=
    let stack := here (bs "getHandler") (bs "countlog.go") :: stack in
    let s := others E s in
    match byEvent s eventName with
    | Some h => (s, Some h)
    | None => newHandler eventName agg ctx properties stack s
    end.

  (** countlog.go:146-166; [now]: time.Now() *)
  Definition log (level : Z) (eventName agg : bytes) (ctx : option nat) (err : option error) (properties : list value)
    (now : Z) (stack : list frame) (s : state) : result state (option bytes) :=
    let stack := here (bs "log") (bs "countlog.go") :: stack in
    let '(s, h) := getHandler eventName agg ctx properties stack s in
    match h with
    | None => Pan s
    | Some h =>
      let '(s, (ev, e)) := handlerHandle h (mkEvent level ctx err now properties) stack s in
      match e with
      | Panicked => Pan s
      | Blocked => Never s
      | Returned =>
        match Err ev with
        | None => Ret None s
        | Some text =>
          let '(w, errMsg) := sprint E eventName properties (world s) in
          let s := setWorld s w in
          match errMsg, text with
          | Returns errMsg, Some text => Ret (Some (errMsg ++ bs ": " ++ text)) s
          | Returns _, None => Pan s
          | Panics, _ => Pan s
          | Unfinished, _ => Never s
          end
        end
      end
    end.

  (** countlog.go:168-185; the event is thrown away. *)
  Definition addMemo (eventName : bytes) (err : option error) (properties : list value) (s : state) : result state unit :=
    match err with
    | None => Ret tt s
    | Some text =>
      let '(w, errMsg) := sprint E eventName properties (world s) in
      let s := setWorld s w in
      match errMsg, text with
      | Returns _, Some _ => Ret tt s
      | Unfinished, _ => Never s
      | _, _ => Pan s
      end
    end.

  (** The result of log is not used. countlog.go:42, 65, 88, 108, 113, 118, 126. *)
  Definition ignore {A} (r : result state A) : result state unit :=
    match r with Ret _ s => Ret tt s | Pan s => Pan s | Never s => Never s end.
  (** return nil after a call of log; countlog.go:57, 80, 103 *)
  Definition returnNil (r : result state (option bytes)) : result state (option bytes) :=
    match r with Ret _ s => Ret None s | _ => r end.

  Section Call.
    (** The event name, the properties, the time of the call and the frames of the caller. *)
    Variable event : bytes.
    Variable properties : list value.
    Variable now : Z.
    Variable stack : list frame.

    (** countlog.go:37-43 *)
    Definition Trace (s : state) : result state unit :=
      if LevelTrace <? MinLevel (st_levels s) then Ret tt s
      else ignore (log LevelTrace event [] None None properties now (here (bs "Trace") (bs "countlog.go") :: stack) s).
    (** countlog.go:47-58 *)
    Definition TraceCall (err : option error) (s : state) : result state (option bytes) :=
      let stack := here (bs "TraceCall") (bs "countlog.go") :: stack in
      match err with
      | Some _ => log LevelWarn event (bs "call") None err properties now stack s
      | None =>
        if LevelTrace <? MinLevel (st_levels s) then Ret None s
        else returnNil (log LevelTrace event (bs "call") None err properties now stack s)
      end.
    (** countlog.go:60-66 *)
    Definition Debug (s : state) : result state unit :=
      if LevelDebug <? MinLevel (st_levels s) then Ret tt s
      else ignore (log LevelDebug event [] None None properties now (here (bs "Debug") (bs "countlog.go") :: stack) s).
    (** countlog.go:70-81 *)
    Definition DebugCall (err : option error) (s : state) : result state (option bytes) :=
      let stack := here (bs "DebugCall") (bs "countlog.go") :: stack in
      match err with
      | Some _ => log LevelWarn event (bs "call") None err properties now stack s
      | None =>
        if LevelDebug <? MinLevel (st_levels s) then Ret None s
        else returnNil (log LevelDebug event (bs "call") None err properties now stack s)
      end.
    (** countlog.go:83-89 *)
    Definition Info (s : state) : result state unit :=
      if LevelInfo <? MinLevel (st_levels s) then Ret tt s
      else ignore (log LevelInfo event [] None None properties now (here (bs "Info") (bs "countlog.go") :: stack) s).
    (** countlog.go:93-104 *)
    Definition InfoCall (err : option error) (s : state) : result state (option bytes) :=
      let stack := here (bs "InfoCall") (bs "countlog.go") :: stack in
      match err with
      | Some _ => log LevelWarn event (bs "call") None err properties now stack s
      | None =>
        if LevelInfo <? MinLevel (st_levels s) then Ret None s
        else returnNil (log LevelInfo event (bs "call") None err properties now stack s)
      end.
    (** countlog.go:106-109 *)
    Definition Warn (s : state) : result state unit :=
      ignore (log LevelWarn event [] None None properties now (here (bs "Warn") (bs "countlog.go") :: stack) s).
    (** countlog.go:111-114 *)
    Definition Error (s : state) : result state unit :=
      ignore (log LevelError event [] None None properties now (here (bs "Error") (bs "countlog.go") :: stack) s).
    (** countlog.go:116-119 *)
    Definition Fatal (s : state) : result state unit :=
      ignore (log LevelFatal event [] None None properties now (here (bs "Fatal") (bs "countlog.go") :: stack) s).
    (** countlog.go:121-127 *)
    Definition Log (level : Z) (s : state) : result state unit :=
      if level <? MinLevel (st_levels s) then Ret tt s
      else ignore (log level event [] None None properties now (here (bs "Log") (bs "countlog.go") :: stack) s).

    (** The methods of Context number [ctx]; [suppressed]: ctx.suppressedMinLevel. *)
    Variable ctx : nat.
    Variable suppressed : Z.
    (** context.go:37-47 *)
    Definition Ctx_Trace (s : state) : result state unit :=
      if LevelTrace <? MinLevel (st_levels s) then Ret tt s
      else if LevelTrace <? suppressed then addMemo event None properties s
      else ignore (log LevelTrace event [] (Some ctx) None properties now (here (bs "(*Context).Trace") (bs "context.go") :: stack) s).
    (** context.go:49-60 *)
    Definition Ctx_TraceCall (err : option error) (s : state) : result state (option bytes) :=
      let stack := here (bs "(*Context).TraceCall") (bs "context.go") :: stack in
      match err with
      | Some _ => log LevelWarn event (bs "call") (Some ctx) err properties now stack s
      | None =>
        if LevelTrace <? MinLevel (st_levels s) then Ret None s
        else returnNil (log LevelTrace event (bs "call") (Some ctx) err properties now stack s)
      end.
    (** context.go:62-68 *)
    Definition Ctx_Debug (s : state) : result state unit :=
      if LevelDebug <? MinLevel (st_levels s) then Ret tt s
      else ignore (log LevelDebug event [] (Some ctx) None properties now (here (bs "(*Context).Debug") (bs "context.go") :: stack) s).
    (** context.go:70-81 *)
    Definition Ctx_DebugCall (err : option error) (s : state) : result state (option bytes) :=
      let stack := here (bs "(*Context).DebugCall") (bs "context.go") :: stack in
      match err with
      | Some _ => log LevelWarn event (bs "call") (Some ctx) err properties now stack s
      | None =>
        if LevelDebug <? MinLevel (st_levels s) then Ret None s
        else returnNil (log LevelDebug event (bs "call") (Some ctx) err properties now stack s)
      end.
    (** context.go:83-89 *)
    Definition Ctx_Info (s : state) : result state unit :=
      if LevelInfo <? MinLevel (st_levels s) then Ret tt s
      else ignore (log LevelInfo event [] (Some ctx) None properties now (here (bs "(*Context).Info") (bs "context.go") :: stack) s).
    (** context.go:91-102 *)
    Definition Ctx_InfoCall (err : option error) (s : state) : result state (option bytes) :=
      let stack := here (bs "(*Context).InfoCall") (bs "context.go") :: stack in
      match err with
      | Some _ => log LevelWarn event (bs "call") (Some ctx) err properties now stack s
      | None =>
        if LevelInfo <? MinLevel (st_levels s) then Ret None s
        else returnNil (log LevelInfo event (bs "call") (Some ctx) err properties now stack s)
      end.
    (** context.go:104-115 *)
    Definition Ctx_LogAccess (err : option error) (s : state) : result state (option bytes) :=
      let stack := here (bs "(*Context).LogAccess") (bs "context.go") :: stack in
      match err with
      | Some _ => log LevelError event (bs "call") (Some ctx) err properties now stack s
      | None =>
        if LevelInfo <? MinLevel (st_levels s) then Ret None s
        else returnNil (log LevelInfo event (bs "call") (Some ctx) err properties now stack s)
      end.
    (** context.go:117-120 *)
    Definition Ctx_Warn (s : state) : result state unit :=
      ignore (log LevelWarn event [] (Some ctx) None properties now (here (bs "(*Context).Warn") (bs "context.go") :: stack) s).
    (** context.go:122-125 *)
    Definition Ctx_Error (s : state) : result state unit :=
      ignore (log LevelError event [] (Some ctx) None properties now (here (bs "(*Context).Error") (bs "context.go") :: stack) s).
    (** context.go:127-130 *)
    Definition Ctx_Fatal (s : state) : result state unit :=
      ignore (log LevelFatal event [] (Some ctx) None properties now (here (bs "(*Context).Fatal") (bs "context.go") :: stack) s).
  End Call.

  (** countlog.go:129-142; [recovered]: nil or a value, [trace]: the text of the stack.  The two branches pass the same list. *)
  Definition LogPanic (recovered : option value) (properties : list value) (trace : bytes) (now : Z) (stack : list frame) (s : state)
    : result state (option value) :=
    match recovered with
    | None => Ret None s
    | Some v =>
      match Fatal (bs "event!panic") (properties ++ [VStr (bs "err"); v; VStr (bs "stacktrace"); VStr trace]) now
          (here (bs "LogPanic") (bs "countlog.go") :: stack) s with
      | Ret _ s => Ret recovered s
      | Pan s => Pan s
      | Never s => Never s
      end
    end.

  (** timer.go:8-27; [now]: time.Now().UnixNano() *)
  Definition TraceTimer (now : Z) (s : state) : Z := if LevelTrace <? MinLevel (st_levels s) then 0 else now.
  (** timer.go:8-27 *)
  Definition DebugTimer (now : Z) (s : state) : Z := if LevelDebug <? MinLevel (st_levels s) then 0 else now.
  (** timer.go:8-27 *)
  Definition InfoTimer (now : Z) (s : state) : Z := if LevelInfo <? MinLevel (st_levels s) then 0 else now.
End Countlog.
