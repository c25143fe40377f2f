(** Model of the output formats countlog/output/hrf, compact, printf and json, of countlog/output/format.go, of the log contexts
    (countlog/spi/context.go, context.go:9-35 and 132-135) and of LogSite.LogContext and Location (spi.go:68-78). *)
From Verif Require Import Base MsgfmtModel CountlogModel.
Local Arguments Returns {A}.
Local Arguments Panics {A}.
Local Arguments Unfinished {A}.

(** * Contexts *)

(** What a context holds under a key: nothing (nil), a *LogContext (a number, its address), or something else. *)
Inductive held := HNil | HLog (address : nat) | HOther (x : Z).
(** A context.Context: context.Background, context.WithValue, a *Context (context.go:17-21; its logContext is an address), a nil
    *Context.  Keys are the ints among the interface values. *)
Inductive context :=
| Background
| WithValue (parent : context) (key : Z) (val : held)
| Wrapped (inner : context) (logContext : nat)
| NilContext.
(** spi/context.go:5 *)
Definition LogContextKey : Z := 1010010001.
(** The LogContexts that were allocated: their Properties (spi/context.go:7-10; the Memos are never read). *)
Definition heap := list (list value).

(** Value: context.go:27-35, and of the context package. *)
Fixpoint Value (c : context) (key : Z) : held :=
  match c with
  | Background => HNil
  | WithValue p k v => if k =? key then v else Value p key
  | Wrapped inner l => if key =? LogContextKey then HLog l else Value inner key
  | NilContext => HNil
  end.

(** context.go:9-15 *)
Definition Ctx (h : heap) (c : context) : heap * context :=
  match c with
  | Wrapped _ _ | NilContext => (h, c)
  | _ => (h ++ [[]], Wrapped c (List.length h))
  end.

(** spi/context.go:21-24 *)
Definition GetLogContext (c : context) : option nat :=
  match Value c LogContextKey with HLog l => Some l | _ => None end.

(** The Properties of a LogContext, and appending to them; spi/context.go:7-10, 16-18 *)
Definition properties (h : heap) (l : nat) : list value := nth l h [].
(** spi/context.go:16-18, context.go:132-135 *)
Definition appendProperty (h : heap) (l : nat) (key : bytes) (v : value) : heap :=
  firstn l h ++ match skipn l h with [] => [] | p :: r => (p ++ [VStr key; v]) :: r end.

(** context.go:132-135.  [None]: panic, for a nil *Context. *)
Definition Add (h : heap) (c : context) (key : bytes) (v : value) : option heap :=
  match c with
  | Wrapped _ l => Some (appendProperty h l key v)
  | _ => None
  end.

(** spi/context.go:12-19 *)
Definition AddLogContext (h : heap) (c : context) (key : bytes) (v : value) : heap :=
  match GetLogContext c with
  | None => h
  | Some l => appendProperty h l key v
  end.

(** * Texts *)

(** int64 arithmetic *)
Definition int64 (z : Z) : Z := (z + 2 ^ 63) mod 2 ^ 64 - 2 ^ 63.

(** A string given as a prefix: strings.HasPrefix, and what follows; hrf.go:18-25, compact.go:22-30 *)
Fixpoint cutPrefix (p s : bytes) : option bytes :=
  match p, s with
  | [], _ => Some s
  | a :: p, b :: s => if a =? b then cutPrefix p s else None
  | _ :: _, [] => None
  end.

(** spi/color.go:3-26: the map coloredNames, empty at first, and what init does to it *)
Definition coloredNames : Z -> bytes :=
  fold_left (fun m level l => if l =? level then m level else m l)
    [LevelTraceCall; LevelTrace; LevelDebugCall; LevelDebug; LevelInfoCall; LevelInfo; LevelWarn; LevelError; LevelFatal]
    (fun _ => []).
(** spi/color.go:3-26 *)
Definition ColoredLevelName (level : Z) : bytes := coloredNames level.

Section Output.
  (** Code of other packages: see MsgfmtModel.v; decimal: the text of an int by %v; durationString: Duration.String;
      int64Type, intType: the numbers of these types. *)
  Variable encoderOf : Z -> option (value -> option bytes).
  Variable timeString : Z -> bytes.
  Variable timeFormat : bytes -> Z -> bytes.
  Variable trimSpace : bytes -> bytes.
  Variable argsText : list value -> bytes.
  Variable panicText : bytes.
  Variable decimal : Z -> bytes.
  Variable durationString : Z -> bytes.
  Variable int64Type : Z.
  Variable intType : Z.
  (** The Properties of the LogContext of a context, at the time of the call; [None]: it has none. *)
  Variable logContext : nat -> option (list value).

  Notation FormatterOf := (FormatterOf encoderOf trimSpace panicText).
  Notation Format := (MsgfmtModel.Format timeString timeFormat argsText).

  (** spi.go:68-74 *)
  Definition LogContext (st : site) : option (list value) :=
    match Context st with None => None | Some c => logContext c end.
  (** spi.go:76-78 *)
  Definition Location (st : site) : bytes := Func st ++ bs " @ " ++ File st ++ bs ":" ++ decimal (Line st).

  (** The Formatters of the packages hrf and compact (one type for both): hrf/level.go, hrf/fixed.go and compact/fixed.go, hrf/prop.go
      and compact/default.go, hrf/ctx.go, hrf/timestamp.go, hrf/error.go, hrf/timer.go, hrf/location.go, compact/timestamp.go,
      compact/error.go *)
  Inductive piece :=
  | PLevel
  | PFixed (s : bytes)
  | PProp (f : formatter)
  | PCtx (f : formatter)
  | PTimestamp
  | PError
  | PTimer (idx : Z)
  | PLocation (s : bytes)
  | PCompactTimestamp
  | PCompactError.

  (** hrf/error.go:8-20, compact/error.go:8-18: [before] and [after] the message *)
  Definition formatError (before after : bytes) (space : bytes) (ev : event) : option bytes :=
    match Err ev with
    | None => Some space
    | Some None => None
    | Some (Some []) => Some space
    | Some (Some msg) => Some (space ++ before ++ msg ++ after)
    end.

  (** The text "\x1b[90;1m" and "\x1b[0m" *)
  Definition dim : bytes := 27 :: bs "[90;1m".
  (** hrf/error.go:8-20 *)
  Definition plain : bytes := 27 :: bs "[0m".

  (** Their Format methods, in the files above.  [None]: panic. hrf/*.go and compact/*.go. *)
  Definition formatPiece (p : piece) (space : bytes) (ev : event) : option bytes :=
    match p with
    | PLevel => Some (space ++ ColoredLevelName (Level ev))
    | PFixed s => Some (space ++ s)
    | PProp f => Format f space (Properties ev)
    | PCtx f =>
      match EventContext ev with
      | None => None
      | Some c => match logContext c with None => None | Some props => Format f space props end
      end
    | PTimestamp => Some (space ++ timeFormat (bs "15:04:05.000") (Timestamp ev))
    | PError => formatError (10 :: dim ++ bs "error: ") plain space ev
    | PTimer idx =>
      match at_ (Properties ev) idx with
      | Some (VAny ty x) =>
        if ty =? int64Type then Some (space ++ 10 :: bs "timer: " ++ durationString (int64 (Timestamp ev - x))) else None
      | _ => None
      end
    | PLocation s => Some (if LevelWarn <=? Level ev then space ++ s else space)
    | PCompactTimestamp =>
      Some (space ++ bs "[" ++ LevelName (Level ev) ++ bs "] [" ++ timeFormat RFC3339 (Timestamp ev) ++ bs "]")
    | PCompactError => formatError (bs " error:") [] space ev
    end.

  (** output/format.go:15-20 *)
  Fixpoint formatPieces (l : list piece) (space : bytes) (ev : event) : option bytes :=
    match l with
    | [] => Some space
    | p :: l => obind (formatPiece p space ev) (fun space => formatPieces l space ev)
    end.

  (** Calls in sequence, with the cache of formatters; hrf.go:15-60, compact.go:14-43 *)
  Definition fm (A : Type) := cache -> outcome A * cache.
  (** The same (hrf.go:15-60): a result *)
  Definition fret {A} (a : A) : fm A := fun c => (Returns a, c).
  (** The same (hrf.go:15-60): a panic *)
  Definition fpanic {A} : fm A := fun c => (Panics, c).
  (** The same (hrf.go:15-60): one call after another *)
  Definition fbind {A B} (x : fm A) (f : A -> fm B) : fm B := fun c =>
    match x c with
    | (Returns a, c) => f a c
    | (Panics, c) => (Panics, c)
    | (Unfinished, c) => (Unfinished, c)
    end.
  (** msgfmt.FormatterOf; msgfmt.go:72-80 *)
  Definition formatterOf (fuel : nat) (format : bytes) (sample : list value) : fm formatter :=
    fun c => FormatterOf fuel c format sample.

  (** The text of the format for one property: hrf.go:38, 50 *)
  Definition hrfProp (key : bytes) : bytes := 10 :: key ++ bs ": {" ++ key ++ bs "}".
  (** compact.go:35 *)
  Definition compactProp (key : bytes) : bytes := bs "||" ++ key ++ bs "={" ++ key ++ bs "}".

  (** hrf.go:34-41; [rest] = ctx.Properties[i:] *)
  Fixpoint hrfCtxLoop (fuel : nat) (props rest : list value) : fm (list piece) :=
    match rest with
    | [] => fret []
    | VStr key :: r =>
      fbind (formatterOf fuel (hrfProp key) props) (fun f =>
      fbind (match r with [] => fret [] | _ :: r => hrfCtxLoop fuel props r end) (fun l =>
      fret (PFixed dim :: PCtx f :: PFixed plain :: l)))
    | _ => fpanic
    end.

  (** hrf.go:43-54; [rest] = site.Sample[i:] *)
  Fixpoint hrfSampleLoop (fuel : nat) (sample : list value) (i : Z) (rest : list value) : fm (list piece) :=
    match rest with
    | [] => fret []
    | VStr key :: r =>
      fbind (if bytes_eqb key (bs "timer") then fret (PTimer (i + 1))
             else fbind (formatterOf fuel (hrfProp key) sample) (fun f => fret (PProp f))) (fun p =>
      fbind (match r with [] => fret [] | _ :: r => hrfSampleLoop fuel sample (i + 2) r end) (fun l =>
      fret (PFixed dim :: p :: PFixed plain :: l)))
    | _ => fpanic
    end.

  (** hrf.go:18-25, with the prefixes "event!" and "callee!"; compact.go:22-30, where [call] = "call " *)
  Definition eventPiece (fuel : nat) (call : bytes) (st : site) : fm piece :=
    match cutPrefix (bs "event!") (SiteEvent st) with
    | Some name => fret (PFixed name)
    | None =>
      match cutPrefix (bs "callee!") (SiteEvent st) with
      | Some name => fret (PFixed (call ++ name))
      | None => fbind (formatterOf fuel (SiteEvent st) (Sample st)) (fun f => fret (PProp f))
      end
    end.

  (** hrf.go:15-60 *)
  Definition hrfFormatterOf (showTimestamp : bool) (fuel : nat) (st : site) : fm (list piece) :=
    fbind (eventPiece fuel [] st) (fun message =>
    fbind (match LogContext st with None => fret [] | Some props => hrfCtxLoop fuel props props end) (fun ctx =>
    fbind (hrfSampleLoop fuel (Sample st) 0 (Sample st)) (fun sample =>
    fret ([PLevel; message] ++
          (if showTimestamp then [PFixed (10 :: dim ++ bs "timestamp: "); PTimestamp; PFixed plain] else []) ++
          [PError] ++ ctx ++ sample ++
          [PFixed dim; PLocation (10 :: bs "location: " ++ Location st); PFixed plain; PFixed [10]])))).

  (** compact.go:33-39; [rest] = sample[i:] *)
  Fixpoint compactLoop (fuel : nat) (sample rest : list value) : fm (list piece) :=
    match rest with
    | [] => fret []
    | VStr key :: r =>
      fbind (formatterOf fuel (compactProp key) sample) (fun f =>
      fbind (match r with [] => fret [] | _ :: r => compactLoop fuel sample r end) (fun l =>
      fret (PProp f :: l)))
    | _ => fpanic
    end.

  (** compact.go:14-43 *)
  Definition compactFormatterOf (fuel : nat) (st : site) : fm (list piece) :=
    fbind (eventPiece fuel (bs "call ") st) (fun message =>
    fbind (compactLoop fuel (Sample st) (Sample st)) (fun sample =>
    fret ([PCompactTimestamp; PFixed (bs "[" ++ Location st ++ bs "] "); message; PCompactError] ++ sample ++ [PFixed [10]]))).

  (** printf.go:34-41 *)
  Record printfFormatter := mkPrintf {
    pf_event : bytes; pf_function : bytes; pf_file : bytes; pf_line : Z; logFmt : formatter; messageFmt : formatter
  }.
  (** printf.go:21-29, 45-53: the fourteen arguments of the layout *)
  Definition printfArgs (message : bytes) (timestamp : Z) (level event function file : bytes) (line : Z) : list value :=
    [VStr (bs "message"); VByt message; VStr (bs "timestamp"); VTime timestamp; VStr (bs "level"); VStr level;
     VStr (bs "event"); VStr event; VStr (bs "func"); VStr function; VStr (bs "file"); VStr file;
     VStr (bs "line"); VAny intType line].
  (** time.Time{}, printf.go:23; only its type matters. *)
  Definition zeroTime : Z := 0.
  (** printf.go:14-32 *)
  Definition printfFormatterOf (layout : bytes) (fuel : nat) (st : site) : fm printfFormatter :=
    fbind (formatterOf fuel (layout ++ [10]) (printfArgs [] zeroTime [] [] [] [] 0)) (fun logFmt =>
    fbind (formatterOf fuel (SiteEvent st) (Sample st)) (fun messageFmt =>
    fret (mkPrintf (SiteEvent st) (Func st) (File st) (Line st) logFmt messageFmt))).
  (** printf.go:43-54 *)
  Definition printfFormat (f : printfFormatter) (space : bytes) (ev : event) : option bytes :=
    obind (Format (messageFmt f) [] (Properties ev)) (fun message =>
    Format (logFmt f) space
      (printfArgs message (Timestamp ev) (LevelName (Level ev)) (pf_event f) (pf_function f) (pf_file f) (pf_line f))).

  (** The number of the type of a value, as reflect2.TypeOf gives it, and the encoder jsonfmt.EncoderOf gives for it; [None]: panic. *)
  Variable typeOf : value -> Z.
  Variable jsonEncoderOf : Z -> option (value -> option bytes).
  (** json.go:37-41: prefix, idx, encoder *)
  Record jsonProp := mkJsonProp { jp_prefix : bytes; jp_idx : Z; jp_encoder : value -> option bytes }.
  (** json.go:30-35 *)
  Record jsonFormatter := mkJson {
    jf_prefix : bytes; jf_suffix : bytes; jf_props : list jsonProp; jf_timestampEncoder : value -> option bytes
  }.
  (** A double quote *)
  Definition quote : bytes := [34].
  (** json.go:19-26; [rest] = site.Sample[i:] *)
  Fixpoint jsonLoop (i : Z) (rest : list value) : option (list jsonProp) :=
    match rest with
    | [] => Some []
    | VStr key :: v :: r =>
      obind (jsonEncoderOf (typeOf v)) (fun e =>
      obind (jsonLoop (i + 2) r) (fun l =>
      Some (mkJsonProp (quote ++ key ++ quote ++ bs ":") (i + 1) e :: l)))
    | _ => None
    end.
  (** json.go:13-28.  [None]: panic. *)
  Definition jsonFormatterOf (st : site) : option jsonFormatter :=
    obind (jsonEncoderOf int64Type) (fun t =>
    obind (jsonLoop 0 (Sample st)) (fun props =>
    Some (mkJson (bs "{" ++ quote ++ bs "event" ++ quote ++ bs ":" ++ quote ++ SiteEvent st ++ quote)
                 (bs ",location:" ++ quote ++ Location st ++ quote ++ bs "}" ++ [10]) props t))).
  (** json.go:45-49 *)
  Fixpoint jsonFormatProps (l : list jsonProp) (space : bytes) (ev : event) : option bytes :=
    match l with
    | [] => Some space
    | p :: l =>
      obind (at_ (Properties ev) (jp_idx p)) (fun v =>
      obind (jp_encoder p v) (fun s =>
      jsonFormatProps l (space ++ bs "," ++ jp_prefix p ++ s) ev))
    end.
  (** json.go:43-54.  [None]: panic. *)
  Definition jsonFormat (f : jsonFormatter) (space : bytes) (ev : event) : option bytes :=
    obind (jsonFormatProps (jf_props f) (space ++ jf_prefix f) ev) (fun space =>
    obind (jf_timestampEncoder f (VAny int64Type (Timestamp ev))) (fun t =>
    Some (space ++ bs ",timestamp:" ++ t ++ jf_suffix f))).
End Output.
