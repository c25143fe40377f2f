(** What the records of the text formats should look like, stated with the meaning of templates and values of MsgfmtSpec.v. *)
From Verif Require Import Base JsonStrSpec ParseModel ParseSpec MsgfmtModel MsgfmtSpec CountlogModel CountlogSpec OutputModel.
From Verif Require StatsModel StatsSpec.

(** A property name that can stand between braces in a template. *)
Definition name_key (k : bytes) : Prop :=
  exists runes, k = runes_text runes /\ Forall name_rune runes /\
  match runes with r :: _ => unicodeIsSpace r = false | [] => True end.

(** The argument lists that are pairs. *)
Notation flat := StatsSpec.flat.

Section Spec.
  Variable encoderOf : Z -> option (value -> option bytes).
  Variable timeString : Z -> bytes.
  Variable timeFormat : bytes -> Z -> bytes.
  Variable trimSpace : bytes -> bytes.
  Variable decimal : Z -> bytes.
  Variable durationString : Z -> bytes.
  Variable int64Type : Z.
  Variable intType : Z.
  Notation shows := (shows encoderOf timeString).
  Notation expands := (expands encoderOf timeString timeFormat trimSpace).

  (** The message of an event: the name after "event!" or "callee!" (here [call] is put before it), or the name expanded as a
      template. *)
  Inductive message (call : bytes) (name : bytes) (kvs : list (bytes * value)) : bytes -> Prop :=
  | message_event n : name = bs "event!" ++ n -> message call name kvs n
  | message_callee n : name = bs "callee!" ++ n -> message call name kvs (call ++ n)
  | message_template t out : (forall n, name <> bs "event!" ++ n) -> (forall n, name <> bs "callee!" ++ n) ->
      template_ok t -> name = template_text t -> name <> [] -> expands (flat kvs) (t_parts t) (t_end t) out -> message call name kvs out.

  (** Grey text on a terminal. *)
  Definition grey (s : bytes) : bytes := [27] ++ bs "[90;1m" ++ s ++ [27] ++ bs "[0m".
  (** Lines of properties with their values; [timer]: the property "timer" is the time passed until [now]. *)
  Inductive lines (timer : bool) (now : Z) : list (bytes * value) -> bytes -> Prop :=
  | lines_nil : lines timer now [] []
  | lines_value k v s kvs out : (timer = true -> k <> bs "timer") -> name_key k -> shows v s -> lines timer now kvs out ->
      lines timer now ((k, v) :: kvs) (grey ([10] ++ k ++ bs ": " ++ s) ++ out)
  | lines_timer start kvs out : timer = true -> lines timer now kvs out -> - 2 ^ 63 <= now - start < 2 ^ 63 ->
      lines timer now ((bs "timer", VAny int64Type start) :: kvs) (grey ([10] ++ bs "timer: " ++ durationString (now - start)) ++ out).

  (** The text of an error, if any. *)
  Definition error_text (before after : bytes) (e : option error) (s : bytes) : Prop :=
    match e with
    | None => s = []
    | Some None => False
    | Some (Some t) => s = match t with [] => [] | _ => before ++ t ++ after end
    end.

  (** Where the call is. *)
  Definition place (st : site) : bytes := Func st ++ bs " @ " ++ File st ++ bs ":" ++ decimal (Line st).

  (** A human readable record: the message, the time, the error, the properties of the context [ctx] and of the event [kvs], and from
      level Warn on the place. *)
  Inductive hrf_record (showTimestamp : bool) (st : site) (level : Z) (err : option error) (now : Z) (ctx kvs : list (bytes * value))
    : bytes -> Prop :=
  | hrf_text m e c p : message [] (SiteEvent st) kvs m -> error_text ([10; 27] ++ bs "[90;1merror: ") ([27] ++ bs "[0m") err e ->
      lines false now ctx c -> lines true now kvs p ->
      hrf_record showTimestamp st level err now ctx kvs
        (m ++ (if showTimestamp then [10] ++ grey (bs "timestamp: " ++ timeFormat (bs "15:04:05.000") now) else []) ++ e ++ c ++ p
         ++ grey (if 40 <=? level then [10] ++ bs "location: " ++ place st else []) ++ [10]).

  (** The properties of a compact record. *)
  Inductive fields : list (bytes * value) -> bytes -> Prop :=
  | fields_nil : fields [] []
  | fields_value k v s kvs out : name_key k -> shows v s -> fields kvs out ->
      fields ((k, v) :: kvs) (bs "||" ++ k ++ bs "=" ++ s ++ out).
  Inductive compact_record (st : site) (level : Z) (err : option error) (now : Z) (kvs : list (bytes * value)) : bytes -> Prop :=
  | compact_text m e p : message (bs "call ") (SiteEvent st) kvs m -> error_text (bs " error:") [] err e -> fields kvs p ->
      compact_record st level err now kvs
        (bs "[" ++ LevelName level ++ bs "] [" ++ timeFormat (bs "2006-01-02T15:04:05Z07:00") now ++ bs "]"
         ++ bs "[" ++ place st ++ bs "] " ++ m ++ e ++ p ++ [10]).

  (** A record after a layout, a template over the fields of the record. *)
  Definition printf_fields (st : site) (level : Z) (now : Z) (message : bytes) : list (bytes * value) :=
    [(bs "message", VByt message); (bs "timestamp", VTime now); (bs "level", VStr (LevelName level));
     (bs "event", VStr (SiteEvent st)); (bs "func", VStr (Func st)); (bs "file", VStr (File st)); (bs "line", VAny intType (Line st))].
End Spec.

(** * The uses of formats *)
(** Formats with the argument list they are compiled for. *)
Definition uses := list (bytes * list value).
(** All uses of a format in [u] agree with all uses of it in [h] and in [u] on the shape of the arguments. *)
Definition consistent (h u : uses) : Prop :=
  forall f a b, In (f, a) (h ++ u) -> In (f, b) u -> same_shape a b.
Definition property_format (before middle : bytes) (k : bytes) : bytes := before ++ k ++ middle ++ bs "{" ++ k ++ bs "}".
(** The formats used for a site: the name of the event, and one for each property. *)
Definition hrf_uses (name : bytes) (ctx kvs : list (bytes * value)) : uses :=
  (name, flat kvs) :: map (fun kv => (property_format [10] (bs ": ") (fst kv), flat ctx)) ctx
                   ++ map (fun kv => (property_format [10] (bs ": ") (fst kv), flat kvs)) kvs.
Definition compact_uses (name : bytes) (kvs : list (bytes * value)) : uses :=
  (name, flat kvs) :: map (fun kv => (property_format (bs "||") (bs "=") (fst kv), flat kvs)) kvs.
(** Two lists of properties with the same names and the same kinds of values. *)
Definition alike (a b : list (bytes * value)) : Prop := Forall2 (fun x y => fst x = fst y /\ kind (snd x) = kind (snd y)) a b.

(** * Programs with the default configuration *)
(** The world: the formatters msgfmt keeps, and the texts written. *)
Record sworld := mkWorld { w_cache : cache; w_out : list bytes }.
Inductive shandler := SDummy | SWrite (ps : list piece).
Section Standard.
  Variable encoderOf : Z -> option (value -> option bytes).
  Variable timeString : Z -> bytes.
  Variable timeFormat : bytes -> Z -> bytes.
  Variable trimSpace : bytes -> bytes.
  Variable argsText : list value -> bytes.
  Variable panicText : bytes.
  Variable decimal : Z -> bytes.
  Variable durationString : Z -> bytes.
  Variable int64Type : Z.

  (** The default configuration (countlog/spi.go:8-15): statistics without collector, and a writer with the human readable format.
      No context has properties.  A format that is never done with counts as a panic. *)
  Definition standard (fuel : nat) : environment sworld shandler := {|
    aggregatorHandlerOf := fun st w =>
      (w, match snd (StatsModel.HandlerOf false (Agg st) (Sample st)) with
          | StatsModel.AggPanics => None
          | StatsModel.AggNil => Some None
          | StatsModel.AggDummy | StatsModel.AggCount _ => Some (Some SDummy)
          end);
    writerHandlerOf := fun st w =>
      let '(o, c) := hrfFormatterOf encoderOf trimSpace panicText decimal (fun _ => Some []) false fuel st (w_cache w) in
      (mkWorld c (w_out w), match o with Returns _ ps => Some (SWrite ps) | _ => None end);
    handle := fun h ev w =>
      match h with
      | SDummy => (w, (ev, Returned))
      | SWrite ps =>
        match formatPieces timeString timeFormat argsText durationString int64Type (fun _ => Some []) ps [] ev with
        | Some t => (mkWorld (w_cache w) (w_out w ++ [t]), (ev, Returned))
        | None => (w, (ev, Panicked))
        end
      end;
    loglogError := fun w => w;
    printStack := fun w => w;
    sprint := fun event props w =>
      let '(o, c) := Sprintf encoderOf timeString timeFormat trimSpace argsText panicText fuel (w_cache w) event props in
      (mkWorld c (w_out w), o);
    others := fun s => s
  |}.
  Definition start : state sworld shandler := mkState (mkLevels 10 15) (fun _ => None) (fun _ _ => None) (mkWorld [] []).

  (** A call whose properties have different, usable names and values that can be shown, whose event name is a usable message, and,
      if there is an error, a template. *)
  Definition op_shown (o : op) : Prop :=
    match o with
    | OPlain _ event kvs now _ =>
      agg_ok kvs /\ NoDup (map fst kvs) /\ (exists m, message encoderOf timeString timeFormat trimSpace [] event kvs m) /\
      (exists p, lines encoderOf timeString durationString int64Type true now kvs p)
    | OCall _ event err kvs now _ =>
      agg_ok kvs /\ NoDup (map fst kvs) /\ (exists m, message encoderOf timeString timeFormat trimSpace [] event kvs m) /\
      (exists p, lines encoderOf timeString durationString int64Type true now kvs p) /\
      (err <> None -> exists t out, template_ok t /\ event = template_text t /\ event <> [] /\
         expands encoderOf timeString timeFormat trimSpace (flat kvs) (t_parts t) (t_end t) out)
    | OSetMin _ => True
    end.
  (** The formats it uses. *)
  Definition op_uses (o : op) : uses :=
    match o with OPlain _ event kvs _ _ | OCall _ event _ kvs _ _ => hrf_uses event [] kvs | OSetMin _ => [] end.
  (** The text of a record. *)
  Definition record_text (r : site * event) (t : bytes) : Prop :=
    exists kvs, Properties (snd r) = flat kvs /\
    hrf_record encoderOf timeString timeFormat trimSpace decimal durationString int64Type false (fst r) (Level (snd r)) (Err (snd r)) (Timestamp (snd r)) [] kvs t.
  (** What the calls with an error return: the message, and the text of the error. *)
  Inductive answers : list op -> list (option bytes) -> Prop :=
  | answers_nil : answers [] []
  | answers_success m event kvs now stack ops rs : answers ops rs -> answers (OCall m event None kvs now stack :: ops) (None :: rs)
  | answers_failure m event e kvs now stack ops rs t out : template_ok t -> event = template_text t -> event <> [] ->
      expands encoderOf timeString timeFormat trimSpace (flat kvs) (t_parts t) (t_end t) out -> answers ops rs ->
      answers (OCall m event (Some e) kvs now stack :: ops) (Some (out ++ bs ": " ++ e) :: rs)
  | answers_plain m event kvs now stack ops rs : answers ops rs -> answers (OPlain m event kvs now stack :: ops) rs
  | answers_level l ops rs : answers ops rs -> answers (OSetMin l :: ops) rs.
End Standard.

(** * Contexts *)
(** Calls of Add and AddLogContext, and of Ctx in between, in one goroutine. *)
Inductive cop := CAdd (c : context) (k : bytes) (v : value) | CAddLog (c : context) (k : bytes) (v : value) | CCtx (c : context).
Definition cstep (h : heap) (o : cop) : option heap :=
  match o with
  | CAdd c k v => Add h c k v
  | CAddLog c k v => Some (AddLogContext h c k v)
  | CCtx c => Some (fst (Ctx h c))
  end.
Fixpoint crun (h : heap) (ops : list cop) : option heap :=
  match ops with
  | [] => Some h
  | o :: ops => let? h := cstep h o in crun h ops
  end.
(** The log context in reach of a context: of the nearest *Context. *)
Inductive nearest : context -> nat -> Prop :=
| nearest_wrapped inner l : nearest (Wrapped inner l) l
| nearest_value c k v l : k <> 1010010001 -> nearest c l -> nearest (WithValue c k v) l.
(** A *Context. *)
Inductive log_context : context -> nat -> Prop := log_wrapped inner l : log_context (Wrapped inner l) l.
(** The property a call adds to log context [l], if any. *)
Inductive adds_to (l : nat) : cop -> list (bytes * value) -> Prop :=
| adds_here c k v : log_context c l -> adds_to l (CAdd c k v) [(k, v)]
| adds_there c k v l' : log_context c l' -> l' <> l -> adds_to l (CAdd c k v) []
| adds_near c k v : nearest c l -> adds_to l (CAddLog c k v) [(k, v)]
| adds_far c k v l' : nearest c l' -> l' <> l -> adds_to l (CAddLog c k v) []
| adds_ctx c : adds_to l (CCtx c) [].
Inductive adds_all (l : nat) : list cop -> list (bytes * value) -> Prop :=
| adds_none : adds_all l [] []
| adds_more o ops a b : adds_to l o a -> adds_all l ops b -> adds_all l (o :: ops) (a ++ b).
(** Every context is made by Ctx before: its log context exists. *)
Definition cop_known (n : nat) (o : cop) : Prop :=
  match o with
  | CAdd c _ _ => exists l, log_context c l /\ (l < n)%nat
  | CAddLog c _ _ => exists l, nearest c l /\ (l < n)%nat
  | CCtx _ => True
  end.
